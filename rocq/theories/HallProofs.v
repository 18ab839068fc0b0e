(** Proofs about inverse perplexity. *)
From Coq Require Import List Arith ZArith QArith Bool Ascii Reals Lia Lra.
From Verif Require Import Lib QuantModel ConfRegModel ConfClassModel TempModel TempSpec TempProofs3 PredModel PredSpec PredProofs4 PredProofs5 HallModel HallSpec.
Import ListNotations.
Local Notation length := List.length.
Open Scope R_scope.
Open Scope list_scope.

Lemma removelast_firstn {A} (l : list A) : removelast l = firstn (length l - 1) l.
Proof. rewrite removelast_firstn_len. f_equal. lia. Qed.
Lemma combine_nth' {A B} (a : list A) (b : list B) da db i : (i < Nat.min (length a) (length b))%nat -> nth i (combine a b) (da, db) = (nth i a da, nth i b db).
Proof. revert b i. induction a as [|x a IH]; intros [|y b] i H; cbn [length] in H; try lia. destruct i; [reflexivity|]. cbn [combine nth]. apply IH. lia. Qed.
Lemma nth_tl {A} (l : list A) i d : nth i (tl l) d = nth (S i) l d.
Proof. destruct l; [now destruct i|reflexivity]. Qed.
Lemma nth_firstn' {A} (l : list A) n i d : (i < n)%nat -> nth i (firstn n l) d = nth i l d.
Proof. revert l i. induction n; intros [|x l] i H; try lia; [now destruct i|]. destruct i; [reflexivity|]. cbn [firstn nth]. apply IHn. lia. Qed.
Lemma map_nth_seq {A} (l : list A) d : l = map (fun i => nth i l d) (seq 0 (length l)).
Proof.
  induction l as [|x l IH]; [reflexivity|]. cbn [length seq map nth]. f_equal. rewrite IH at 1. rewrite <- seq_shift, map_map. reflexivity.
Qed.
Definition pairs (logits : list (list R)) (labels : list nat) := combine (removelast logits) (tl labels).
Lemma pairs_eq logits labels : length logits = length labels ->
  pairs logits labels = map (fun i => (nth (i - 1) logits [], nth i labels 0%nat)) (seq 1 (length labels - 1)).
Proof.
  intros E. unfold pairs. rewrite (map_nth_seq (combine _ _) ([], 0%nat)).
  assert (L : length (combine (removelast logits) (tl labels)) = (length labels - 1)%nat).
  { rewrite combine_length, removelast_firstn, firstn_length. assert (T : length (tl labels) = (length labels - 1)%nat) by (destruct labels; cbn [length tl]; lia). lia. }
  rewrite L, <- seq_shift, map_map. apply map_ext_in. intros i Hi. apply in_seq in Hi.
  rewrite combine_nth' by (rewrite combine_length in L; lia). rewrite removelast_firstn, nth_firstn', nth_tl by lia. replace (S i - 1)%nat with i by lia. reflexivity.
Qed.
Lemma fold_exp l : fold_right (fun x s => exp x + s) 0 l = rsum (map exp l).
Proof. induction l as [|x l IH]; [reflexivity|]. cbn [map]. unfold rsum in *. cbn [fold_right]. now rewrite IH. Qed.
Lemma token_prob_softmax l y : (y < length l)%nat -> token_prob l y = nth y (softmax l) 0.
Proof. intros H. unfold token_prob. now rewrite fold_exp, softmax_nth. Qed.
Lemma token_loss_prob l y : (y < length l)%nat -> exp (- token_loss l y) = token_prob l y.
Proof.
  intros H. unfold token_loss, token_prob, lse. rewrite fold_exp. assert (P := rsum_exp_pos l ltac:(now apply len_ne in H)).
  replace (- (ln (rsum (map exp l)) - nth y l 0)) with (nth y l 0 + - ln (rsum (map exp l))) by ring.
  rewrite exp_plus, exp_Ropp, exp_ln by assumption. reflexivity.
Qed.
Lemma token_prob_bounds l y : (y < length l)%nat -> 0 < token_prob l y <= 1.
Proof. intros H. rewrite token_prob_softmax by assumption. split; [now apply softmax_pos|now apply softmax_le_1]. Qed.

Lemma losses_ok logits labels : length logits = length labels -> in_vocabulary logits labels ->
  token_losses logits labels = Ok (map (fun i => token_loss (nth (i - 1) logits []) (nth i labels 0%nat)) (seq 1 (length labels - 1))).
Proof.
  intros E V. unfold token_losses. fold (pairs logits labels). rewrite pairs_eq by assumption.
  rewrite (proj2 (forallb_forall _ _)). now rewrite map_map.
  intros p Hp. apply in_map_iff in Hp as (i & <- & Hi). apply in_seq in Hi. cbn [fst snd]. apply Nat.ltb_lt, V. lia.
Qed.
Lemma out_of_vocabulary logits labels n i : length logits = length labels -> (1 <= i < length labels)%nat -> (length (nth (i - 1) logits []) <= nth i labels 0)%nat ->
  inv_perplexity logits labels n = Err IndexError.
Proof.
  intros E Hi V. unfold inv_perplexity, perplexity, token_losses. fold (pairs logits labels). rewrite pairs_eq by assumption.
  replace (forallb _ _) with false; [reflexivity|]. symmetry. apply not_true_is_false. intros F. rewrite forallb_forall in F.
  specialize (F (nth (i - 1) logits [], nth i labels 0%nat)). cbn [fst snd] in F. rewrite Nat.ltb_lt in F.
  assert (nth i labels 0 < length (nth (i - 1) logits []))%nat; [|lia]. apply F, in_map_iff. exists i. split; [reflexivity|]. apply in_seq. lia.
Qed.

Lemma exp_pow n x : exp x ^ n = exp (INR n * x).
Proof.
  induction n as [|n IH]. cbn [pow INR]. now rewrite Rmult_0_l, exp_0.
  cbn [pow]. rewrite IH, <- exp_plus. f_equal. rewrite S_INR. ring.
Qed.
Lemma product_exp {A} (f : A -> R) l : product (map (fun x => exp (- f x)) l) = exp (- rsum (map f l)).
Proof.
  induction l as [|x l IH]. unfold product, rsum. cbn [map fold_right]. now rewrite Ropp_0, exp_0.
  unfold product, rsum in *. cbn [map fold_right]. rewrite IH, <- exp_plus. f_equal. ring.
Qed.
Lemma skipn_seq n : forall k s, skipn k (seq s n) = seq (s + k) (n - k).
Proof. induction n as [|n IH]; intros [|k] s; cbn [skipn seq]. reflexivity. reflexivity. now rewrite Nat.add_0_r, Nat.sub_0_r. rewrite IH. f_equal; lia. Qed.
Definition counted (n len : nat) : nat := if (n =? 0)%nat then len - 1 else Nat.min n (len - 1).
Lemma last_n_seq {A} (f : nat -> A) n len : last_n n (map f (seq 1 (len - 1))) = map f (seq (len - counted n len) (counted n len)).
Proof.
  unfold last_n, counted. destruct (n =? 0)%nat eqn:E.
  - destruct len as [|len]; [reflexivity|]. f_equal. f_equal. lia.
  - rewrite map_length, seq_length, skipn_map, skipn_seq. destruct len as [|len]; [cbn [Nat.sub]; now rewrite Nat.min_0_r|]. f_equal. f_equal; lia.
Qed.
Lemma mean_exp {A} (f : A -> R) l k : length l = S k -> exp (- rmean (map f l)) ^ S k = product (map (fun x => exp (- f x)) l).
Proof.
  intros L. rewrite exp_pow, product_exp. f_equal. unfold rmean. rewrite map_length, L. field. apply not_0_INR. lia.
Qed.

Lemma geometric_general logits labels n : length logits = length labels -> in_vocabulary logits labels -> (2 <= length labels)%nat ->
  let m := counted n (length labels) in
  (1 <= m)%nat /\ exists x, inv_perplexity logits labels n = Ok (Some x) /\ 0 < x <= 1 /\ x ^ m = product (next_token_probs logits labels (length labels - m) m).
Proof.
  intros E V L m. assert (M : (1 <= m)%nat) by (unfold m, counted; destruct (n =? 0)%nat eqn:Z; [|apply Nat.eqb_neq in Z]; lia). split; [assumption|].
  assert (ML : (m <= length labels - 1)%nat) by (unfold m, counted; destruct (n =? 0)%nat; lia).
  unfold inv_perplexity, perplexity. rewrite losses_ok by assumption. cbn [bind]. rewrite last_n_seq. fold m.
  set (f := fun i => token_loss (nth (i - 1) logits []) (nth i labels 0%nat)).
  destruct (map f (seq (length labels - m) m)) as [|z zs] eqn:D. apply map_eq_nil in D. destruct m; [lia|discriminate].
  rewrite <- D. clear D z zs. cbn [bind]. exists (1 / exp (rmean (map f (seq (length labels - m) m)))). split; [reflexivity|].
  set (s := seq (length labels - m) m). assert (LS : length s = m) by apply seq_length.
  replace (1 / exp (rmean (map f s))) with (exp (- rmean (map f s))) by (rewrite exp_Ropp; unfold Rdiv; ring).
  assert (EQ : exp (- rmean (map f s)) ^ m = product (next_token_probs logits labels (length labels - m) m)).
  { destruct m as [|m']; [lia|]. rewrite mean_exp by assumption. unfold next_token_probs. fold s. f_equal. apply map_ext_in. intros i Hi. apply in_seq in Hi.
    apply token_loss_prob, V. lia. }
  split; [|assumption]. split; [apply exp_pos|].
  rewrite <- exp_0. assert (0 <= rmean (map f s)); [|destruct (Req_dec (- rmean (map f s)) 0) as [->|]; [lra|left; apply exp_increasing; lra]].
  unfold rmean. rewrite map_length, LS. apply Rmult_le_pos; [|left; apply Rinv_0_lt_compat, lt_0_INR; lia].
  apply (rs_nonneg f s). intros i Hi. apply in_seq in Hi.
  assert (B : 0 < exp (- f i) <= 1). { unfold f. rewrite token_loss_prob by (apply V; lia). apply token_prob_bounds, V. lia. }
  destruct (Rle_or_lt 0 (f i)); [assumption|]. assert (exp 0 < exp (- f i)) by (apply exp_increasing; lra). rewrite exp_0 in *. lra.
Qed.
Lemma geometric : forall logits labels n, length logits = length labels -> in_vocabulary logits labels -> (1 <= n < length labels)%nat ->
  exists x, inv_perplexity logits labels n = Ok (Some x) /\ 0 < x <= 1 /\ x ^ n = product (next_token_probs logits labels (length labels - n) n).
Proof.
  intros logits labels n E V H. destruct (geometric_general logits labels n E V ltac:(lia)) as (_ & X).
  replace (counted n (length labels)) with n in X; [exact X|]. unfold counted. destruct n; [lia|]. cbn [Nat.eqb]. lia.
Qed.
Lemma geometric_all : forall logits labels n, length logits = length labels -> in_vocabulary logits labels -> (2 <= length labels)%nat -> n = 0%nat \/ (length labels <= n)%nat ->
  exists x, inv_perplexity logits labels n = Ok (Some x) /\ 0 < x <= 1 /\ x ^ (length labels - 1) = product (next_token_probs logits labels 1 (length labels - 1)).
Proof.
  intros logits labels n E V L H. destruct (geometric_general logits labels n E V L) as (_ & X).
  replace (counted n (length labels)) with (length labels - 1)%nat in X. replace (length labels - (length labels - 1))%nat with 1%nat in X by lia. exact X.
  unfold counted. destruct n; [reflexivity|]. cbn [Nat.eqb]. lia.
Qed.
Lemma nothing_to_score : forall logits labels n, length logits = length labels -> (length labels <= 1)%nat -> inv_perplexity logits labels n = Ok None.
Proof.
  intros logits labels n E L. unfold inv_perplexity, perplexity, token_losses.
  replace (combine (removelast logits) (tl labels)) with (@nil (list R * nat)) by (destruct labels as [|? [|]]; cbn [length] in *; try lia; cbn [tl]; destruct (removelast logits); reflexivity).
  cbn [forallb map bind]. unfold last_n. destruct (n =? 0)%nat; [|rewrite skipn_nil]; reflexivity.
Qed.
Lemma unknown_token : forall logits labels n, length logits = length labels ->
  (inv_perplexity logits labels n = Err IndexError <-> ~ in_vocabulary logits labels).
Proof.
  intros logits labels n E. split.
  - intros H V. unfold inv_perplexity, perplexity in H. rewrite losses_ok in H by assumption. cbn [bind] in H. destruct (last_n _ _); discriminate.
  - intros N. destruct (forallb (fun i => (nth i labels 0 <? length (nth (i - 1) logits []))%nat) (seq 1 (length labels - 1))) eqn:F.
    + exfalso. apply N. intros i Hi. rewrite forallb_forall in F. apply Nat.ltb_lt, F, in_seq. lia.
    + assert (X : exists i, In i (seq 1 (length labels - 1)) /\ (nth i labels 0 <? length (nth (i - 1) logits []))%nat = false).
      { clear N. induction (seq 1 (length labels - 1)) as [|i l IH]; [discriminate|]. cbn [forallb] in F. destruct (_ <? _)%nat eqn:D in F. destruct (IH F) as (j & J & K). exists j. split; [now right|assumption]. exists i. split; [now left|assumption]. }
      destruct X as (i & I & K). apply in_seq in I. apply Nat.ltb_ge in K. eapply out_of_vocabulary; [assumption|split|]; [| |eassumption]; lia.
Qed.

(** ---- batches ---- *)
Lemma longest_same {A} n (ls : list (list A)) : ls <> [] -> Forall (fun l => length l = n) ls -> longest ls = n.
Proof.
  intros N H. unfold longest. induction H as [|l ls E H IH]; [easy|]. cbn [map fold_right]. destruct ls as [|l2 ls]. cbn [map fold_right]. lia. rewrite IH by easy. lia.
Qed.
Lemma pad_same {A} (x : A) n l : length l = n -> pad_to x n l = l.
Proof. intros <-. unfold pad_to. rewrite Nat.sub_diag. apply app_nil_r. Qed.
Lemma equal_lengths : forall lm pad nc nt batch i p, Forall (fun p => length (fst p) = nc /\ length (snd p) = nt) batch -> nth_error batch i = Some p ->
  nth_error (score_batch lm pad batch) i = Some (inv_perplexity (lm (fst p ++ snd p) (repeat true (nc + nt))) (fst p ++ snd p) nt).
Proof.
  intros lm pad nc nt batch i p H E.
  assert (N : batch <> []) by (intros ->; destruct i; discriminate).
  assert (LC : longest (map fst batch) = nc). { apply longest_same. destruct batch; easy. apply Forall_map. eapply Forall_impl; [|exact H]. now intros ? []. }
  assert (LT : longest (map snd batch) = nt). { apply longest_same. destruct batch; easy. apply Forall_map. eapply Forall_impl; [|exact H]. now intros ? []. }
  unfold score_batch. rewrite LC, LT, (map_nth_error _ _ _ E).
  apply nth_error_In in E. rewrite Forall_forall in H. destruct (H _ E) as [C T]. rewrite !pad_same by (rewrite ?map_length; assumption).
  rewrite <- map_app. replace (map (fun _ : nat => true) (fst p ++ snd p)) with (repeat true (nc + nt)); [reflexivity|].
  rewrite <- C, <- T, <- app_length. induction (fst p ++ snd p) as [|x l IH]; [reflexivity|]. cbn [length repeat map]. now rewrite IH.
Qed.
Lemma batch_of_one : forall lm pad nc nt batch i p, Forall (fun p => length (fst p) = nc /\ length (snd p) = nt) batch -> nth_error batch i = Some p ->
  nth_error (score_batch lm pad batch) i = nth_error (score_batch lm pad [p]) 0.
Proof.
  intros lm pad nc nt batch i p H E. rewrite (equal_lengths _ _ nc nt _ _ _ H E).
  symmetry. apply (equal_lengths lm pad nc nt [p] 0 p); [|reflexivity]. constructor; [|constructor]. apply nth_error_In in E. rewrite Forall_forall in H. auto.
Qed.

Definition toy_lm (ids : list nat) (mask : list bool) : list (list R) := map (fun _ => [0; ln 3]) ids.
Lemma toy_prob0 : token_prob [0; ln 3] 0 = 1 / 4.
Proof. unfold token_prob. cbn [nth fold_right]. rewrite exp_0, exp_ln by lra. field. Qed.
Lemma toy_prob1 : token_prob [0; ln 3] 1 = 3 / 4.
Proof. unfold token_prob. cbn [nth fold_right]. rewrite exp_0, exp_ln by lra. field. Qed.
Lemma padding_refuted : exists lm pad p q x y, score_batch lm pad [p] = [Ok (Some x)] /\ nth_error (score_batch lm pad [p; q]) 0 = Some (Ok (Some y)) /\ y < x.
Proof.
  exists toy_lm, 0%nat, ([0%nat], [1%nat]), ([0%nat], [1%nat; 1%nat]).
  destruct (geometric (toy_lm [0; 1]%nat [true; true]) [0; 1]%nat 1 eq_refl) as (x & X1 & X2 & X3).
  { intros i Hi. cbn [length] in Hi. destruct i as [|[|i]]; try lia. cbn. lia. } { cbn [length]. lia. }
  destruct (geometric (toy_lm [0; 1; 0]%nat [true; true; false]) [0; 1; 0]%nat 2 eq_refl) as (y & Y1 & Y2 & Y3).
  { intros i Hi. cbn [length] in Hi. destruct i as [|[|[|i]]]; try lia; cbn; lia. } { cbn [length]. lia. }
  exists x, y. split; [|split].
  - change (score_batch toy_lm 0 [([0%nat], [1%nat])]) with [inv_perplexity (toy_lm [0; 1]%nat [true; true]) [0; 1]%nat 1]. now rewrite X1.
  - change (nth_error (score_batch toy_lm 0 [([0%nat], [1%nat]); ([0%nat], [1%nat; 1%nat])]) 0) with (Some (inv_perplexity (toy_lm [0; 1; 0]%nat [true; true; false]) [0; 1; 0]%nat 2)). now rewrite Y1.
  - unfold next_token_probs in X3, Y3. cbn [length Nat.sub seq map nth toy_lm] in X3, Y3. rewrite toy_prob1 in X3. rewrite toy_prob1, toy_prob0 in Y3.
    unfold product in *. cbn [fold_right pow] in *. rewrite !Rmult_1_r in *. nra.
Qed.
