(** Proofs about StatModel.v: averages over batches and over the data set. *)
From Coq Require Import List Arith ZArith QArith Bool String Lia Lqa.
From Verif Require Import Lib QuantModel ConfRegModel ConfClassModel MetricModel NestedModel NestedProofs StatModel StatSpec StatProofs.
Import ListNotations.
Open Scope list_scope.
Local Notation length := List.length.
Local Notation concat := List.concat.

Lemma total_app a b : (total (a ++ b) == total a + total b)%Q.
Proof.
  induction a as [|x a IH].
  - change (total b == 0 + total b)%Q. ring.
  - change (x + total (a ++ b) == x + total a + total b)%Q. rewrite IH. ring.
Qed.
Definition nQ (n : nat) : Q := inject_Z (Z.of_nat n).
Lemma nQ_add a b : (nQ (a + b) == nQ a + nQ b)%Q.
Proof. unfold nQ. rewrite Nat2Z.inj_add, inject_Z_plus. reflexivity. Qed.
Lemma nQ_mul a b : (nQ (a * b) == nQ a * nQ b)%Q.
Proof. unfold nQ. rewrite Nat2Z.inj_mul, inject_Z_mult. reflexivity. Qed.
Lemma nQ_pos a : (0 < a)%nat -> (0 < nQ a)%Q.
Proof. intro H. unfold nQ. change 0%Q with (inject_Z 0). rewrite <- Zlt_Qlt. lia. Qed.

Lemma length_concat_sizes {A} b (l : list (list A)) : all_sizes b l -> length (concat l) = (length l * b)%nat.
Proof.
  intro H. induction l as [|x l IH]; [reflexivity|]. simpl. rewrite app_length, (H x (or_introl eq_refl)), IH; [reflexivity|].
  intros y Hy. apply H. right. exact Hy.
Qed.

Lemma total_averages {A} (f : A -> Q) b (l : list (list A)) : (0 < b)%nat -> all_sizes b l ->
  (total (map (fun x => average (map f x)) l) * nQ b == total (map f (concat l)))%Q.
Proof.
  intros Hb H. pose proof (nQ_pos b Hb) as Pb. induction l as [|x l IH].
  - change (0 * nQ b == 0)%Q. ring.
  - change (concat (x :: l)) with (x ++ concat l). rewrite map_app, total_app, <- IH by (intros y Hy; apply H; right; exact Hy).
    change (total (map (fun x => average (map f x)) (x :: l))) with (average (map f x) + total (map (fun x => average (map f x)) l))%Q.
    unfold average at 1. rewrite map_length, (H x (or_introl eq_refl)). fold (nQ b). field. lra.
Qed.
Lemma average_of_averages {A} (f : A -> Q) b (l : list (list A)) : (0 < b)%nat -> l <> [] -> all_sizes b l ->
  (average (map (fun x => average (map f x)) l) == average (map f (concat l)))%Q.
Proof.
  intros Hb Hl H. pose proof (nQ_pos b Hb) as Pb.
  assert (0 < nQ (length l))%Q as Pl by (apply nQ_pos; destruct l; [contradiction|simpl; lia]).
  unfold average. rewrite !map_length, (length_concat_sizes b l H). fold (nQ (length l)) (nQ (length l * b)).
  rewrite nQ_mul, <- (total_averages f b l Hb H). unfold average. field. split; lra.
Qed.

Lemma total_ext {A} (f g : A -> Q) l : (forall x, In x l -> (f x == g x)%Q) -> (total (map f l) == total (map g l))%Q.
Proof.
  induction l as [|x l IH]; intro H; [reflexivity|].
  change (f x + total (map f l) == g x + total (map g l))%Q. rewrite (H x (or_introl eq_refl)), IH; [reflexivity|].
  intros y Hy. apply H. right. exact Hy.
Qed.

Lemma combine_fst_snd {A B} (l : list (A * B)) : combine (map fst l) (map snd l) = l.
Proof. induction l as [|[a b] l IH]; [reflexivity|]. simpl. rewrite IH. reflexivity. Qed.

Lemma in_entry_value {A} (d : list (string * A)) k v : NoDup (map fst d) -> entry d k v -> assoc_get k d = Some v.
Proof. intros H E. exact (in_get _ _ _ H E). Qed.

(** validation metrics that average over data points *)
Lemma validation_average : forall P T (h : P * T -> Q) name metrics loss b (batches : list (list (P * T))),
  NoDup ("loss"%string :: map fst metrics) ->
  In (name, fun (p : list P) (t : list T) => average (map h (combine p t))) metrics ->
  (0 < b)%nat -> batches <> [] -> all_sizes b batches ->
  exists r m, mean_rows (map (fun x => validation_row (loss x) (Some metrics) (map fst x) (map snd x)) batches) = Ok r /\
    entry r ("val_" ++ name)%string m /\ (m == average (map h (concat batches)))%Q.
Proof.
  intros P T h name metrics loss b batches HN Hin Hb Hne Hs.
  set (K := "val_loss"%string :: map (fun m : string * (list P -> list T -> Q) => ("val_" ++ fst m)%string) metrics).
  set (rows := map (fun x => validation_row (loss x) (Some metrics) (map fst x) (map snd x)) batches).
  destruct (mean_rows_ok K rows) as (r & Er & _ & Vr).
  - unfold rows. intro Hc. apply map_eq_nil in Hc. contradiction.
  - unfold rows. apply Forall_forall. intros x Hx. apply in_map_iff in Hx. destruct Hx as (y & <- & _).
    exact (proj1 (validation_row_entries _ _ (loss y) metrics (map fst y) (map snd y) HN)).
  - assert (In ("val_" ++ name)%string K) as Hk.
    { right. apply in_map_iff. eexists. split; [|exact Hin]. reflexivity. }
    exists r. eexists. split; [exact Er|]. split; [apply get_in; apply Vr; exact Hk|].
    rewrite <- (average_of_averages h b batches Hb Hne Hs).
    unfold rows. rewrite map_map.
    match goal with |- (average ?l1 == average ?l2)%Q => assert (l1 = l2) as ->; [|reflexivity] end.
    apply map_ext. intro x.
    destruct (validation_row_entries _ _ (loss x) metrics (map fst x) (map snd x) HN) as ([N _] & _ & He).
    unfold value_of. rewrite (in_entry_value _ _ _ N (He _ _ Hin)). rewrite combine_fst_snd. reflexivity.
Qed.
Lemma validation_average_refuted : exists (h : Q * Q -> Q) loss (batches : list (list (Q * Q))) r m,
  mean_rows (map (fun x => validation_row (loss x) (Some [("mse"%string, fun p t => average (map h (combine p t)))]) (map fst x) (map snd x)) batches) = Ok r /\
  entry r "val_mse" m /\ ~ (m == average (map h (concat batches)))%Q.
Proof.
  exists (fun x => (fst x - snd x) * (fst x - snd x))%Q, (fun _ => 0%Q), [[(0, 0); (1, 1)]; [(3, 1)]]%Q.
  eexists. eexists. split; [reflexivity|]. split; [right; left; reflexivity|]. vm_compute. discriminate.
Qed.
