(** Proofs about StatModel.v: the entries of batches, epochs and of the returned status. *)
From Coq Require Import List Arith ZArith QArith Bool String Lia Lqa.
From Verif Require Import Lib QuantModel ConfRegModel ConfClassModel MetricModel NestedModel NestedProofs StatModel StatSpec.
Import ListNotations.
Open Scope list_scope.
Local Notation length := List.length.
Local Notation concat := List.concat.

(** ---- dictionaries ---- *)
Lemma keys_set {A} k (v : A) d : forall x, In x (map fst (assoc_set k v d)) <-> x = k \/ In x (map fst d).
Proof.
  induction d as [|[k' v'] d IH]; intro x; simpl.
  - intuition congruence.
  - destruct (String.eqb_spec k k') as [->|Hk]; simpl.
    + intuition congruence.
    + rewrite IH. intuition congruence.
Qed.
Lemma nodup_set {A} k (v : A) d : NoDup (map fst d) -> NoDup (map fst (assoc_set k v d)).
Proof.
  induction d as [|[k' v'] d IH]; intro H; simpl.
  - constructor; [intros []|constructor].
  - inversion H as [|? ? H1 H2]; subst. destruct (String.eqb_spec k k') as [->|Hk]; simpl.
    + exact H.
    + constructor; [|apply IH; exact H2]. rewrite keys_set. intros [E|E]; [congruence|exact (H1 E)].
Qed.

Section Fold.
Context {X A : Type} (key : X -> string) (val : X -> A).
Definition set_all (l : list X) (d : list (string * A)) := fold_left (fun d x => assoc_set (key x) (val x) d) l d.
Lemma set_all_nodup l : forall d, NoDup (map fst d) -> NoDup (map fst (set_all l d)).
Proof. induction l as [|x l IH]; intros d H; [exact H|]. apply IH. apply nodup_set. exact H. Qed.
Lemma set_all_keys l : forall d k, In k (map fst (set_all l d)) <-> In k (map fst d) \/ In k (map key l).
Proof.
  induction l as [|x l IH]; intros d k; simpl; [tauto|].
  unfold set_all in IH |- *. simpl. rewrite IH, keys_set. intuition.
Qed.
Lemma set_all_other l : forall d k, ~ In k (map key l) -> assoc_get k (set_all l d) = assoc_get k d.
Proof.
  induction l as [|x l IH]; intros d k H; simpl; [reflexivity|].
  unfold set_all in IH |- *. simpl. rewrite IH by (intro Hc; apply H; right; exact Hc).
  apply get_set_other. intro Hc. apply H. left. symmetry. exact Hc.
Qed.
Lemma set_all_in l : forall d x, NoDup (map key l) -> In x l -> assoc_get (key x) (set_all l d) = Some (val x).
Proof.
  induction l as [|y l IH]; intros d x H Hx; [destruct Hx|]. simpl in H.
  inversion H as [|? ? H1 H2]; subst. destruct Hx as [->|Hx].
  - change (set_all (x :: l) d) with (set_all l (assoc_set (key x) (val x) d)).
    rewrite set_all_other by exact H1. apply get_set_same.
  - change (set_all (y :: l) d) with (set_all l (assoc_set (key y) (val y) d)).
    apply IH; assumption.
Qed.
End Fold.

Lemma update_set_all d l : update d l = set_all fst snd l d.
Proof. reflexivity. Qed.
Lemma metrics_set_all {P T} (ms : list (string * (P -> T -> Q))) p t : compute_metrics ms p t = set_all fst (fun m => snd m p t) ms [].
Proof. reflexivity. Qed.

Lemma metrics_keys {P T} (ms : list (string * (P -> T -> Q))) p t : has_keys (compute_metrics ms p t) (map fst ms).
Proof.
  rewrite metrics_set_all. split.
  - apply set_all_nodup. constructor.
  - intro k. rewrite set_all_keys. simpl. tauto.
Qed.
Lemma metrics_get {P T} (ms : list (string * (P -> T -> Q))) p t n f : NoDup (map fst ms) -> In (n, f) ms ->
  assoc_get n (compute_metrics ms p t) = Some (f p t).
Proof. intros H Hin. rewrite metrics_set_all. exact (set_all_in fst (fun m => snd m p t) ms [] (n, f) H Hin). Qed.

(** ---- entries of a batch ---- *)
Lemma training_row_entries : forall P T loss (logging : list (string * Q)) (metrics : list (string * (P -> T -> Q))) preds targets,
  NoDup ("loss"%string :: map fst logging ++ map fst metrics) ->
  let r := training_row loss (Some logging) (Some metrics) preds targets in
  has_keys r ("loss"%string :: map fst logging ++ map fst metrics) /\
  entry r "loss" loss /\ (forall k v, In (k, v) logging -> entry r k v) /\
  (forall k f, In (k, f) metrics -> entry r k (f preds targets)).
Proof.
  intros P T loss logging metrics preds targets H r.
  inversion H as [|? ? H1 H2]; subst.
  assert (NoDup (map fst logging) /\ NoDup (map fst metrics) /\ forall k, In k (map fst logging) -> ~ In k (map fst metrics)) as (HL & HM & HLM).
  { clear -H2. induction (map fst logging) as [|a l IH]; simpl in *.
    - repeat split; [constructor|exact H2|intros k []].
    - inversion H2 as [|? ? Ha Hr]; subst. destruct (IH Hr) as (A1 & A2 & A3). repeat split; [|exact A2|].
      + constructor; [|exact A1]. intro Hc. apply Ha. apply in_or_app. left. exact Hc.
      + intros k [->|Hk]; [|apply A3; exact Hk]. intro Hc. apply Ha. apply in_or_app. right. exact Hc. }
  pose proof (metrics_keys metrics preds targets) as [K1 K2].
  assert (r = set_all fst snd (compute_metrics metrics preds targets) (set_all fst snd logging [("loss"%string, loss)])) as Er by reflexivity.
  assert (HK : has_keys r ("loss"%string :: map fst logging ++ map fst metrics)).
  { rewrite Er. split.
    - apply set_all_nodup, set_all_nodup. repeat constructor. intros [].
    - intro k. rewrite !set_all_keys. rewrite K2. simpl. rewrite in_app_iff. tauto. }
  split; [exact HK|]. repeat split.
  - apply get_in. rewrite Er.
    rewrite set_all_other, set_all_other; [reflexivity| |].
    + intro Hc. apply H1. apply in_or_app. left. exact Hc.
    + rewrite K2. intro Hc. apply H1. apply in_or_app. right. exact Hc.
  - intros k v Hin. apply get_in. rewrite Er. rewrite set_all_other.
    + exact (set_all_in fst snd logging _ (k, v) HL Hin).
    + rewrite K2. apply HLM. exact (in_map fst _ _ Hin).
  - intros k f Hin. apply get_in. rewrite Er.
    refine (set_all_in fst snd (compute_metrics metrics preds targets) _ (k, f preds targets) K1 _).
    apply get_in. apply metrics_get; assumption.
Qed.

Lemma append_inj_l (p a b : string) : (p ++ a)%string = (p ++ b)%string -> a = b.
Proof. induction p as [|c p IH]; simpl; intro H; [exact H|]. apply IH. congruence. Qed.

Lemma validation_row_entries : forall P T loss (metrics : list (string * (P -> T -> Q))) preds targets,
  NoDup ("loss"%string :: map fst metrics) ->
  let r := validation_row loss (Some metrics) preds targets in
  has_keys r ("val_loss"%string :: map (fun m => ("val_" ++ fst m)%string) metrics) /\
  entry r "val_loss" loss /\ (forall k f, In (k, f) metrics -> entry r ("val_" ++ k)%string (f preds targets)).
Proof.
  intros P T loss metrics preds targets H r.
  inversion H as [|? ? H1 H2]; subst.
  pose proof (metrics_keys metrics preds targets) as [K1 K2].
  set (cm := compute_metrics metrics preds targets) in *.
  set (named := map (fun kv : string * Q => (("val_" ++ fst kv)%string, snd kv)) cm).
  assert (r = set_all fst snd named [("val_loss"%string, loss)]) as Er by reflexivity.
  assert (map fst named = map (fun k => ("val_" ++ k)%string) (map fst cm)) as En.
  { unfold named. rewrite !map_map. reflexivity. }
  assert (NoDup (map fst named)) as Hn.
  { rewrite En. clear -K1. induction (map fst cm) as [|a l IH]; simpl; [constructor|].
    inversion K1; subst. constructor; [|apply IH; assumption].
    intro Hc. apply in_map_iff in Hc. destruct Hc as (x & Ex & Hx). apply (append_inj_l "val_") in Ex. subst x. contradiction. }
  split; [split|split].
  - rewrite Er. apply set_all_nodup. repeat constructor. intros [].
  - intro k. rewrite Er, set_all_keys, En. simpl. rewrite !in_map_iff.
    split.
    + intros [[E|[]]|(x & Ex & Hx)]; [left; exact E|right].
      apply K2 in Hx. apply in_map_iff in Hx. destruct Hx as (m & Em & Hm). exists m. subst x. split; assumption.
    + intros [E|(m & Em & Hm)]; [left; left; exact E|right]. exists (fst m). split; [exact Em|].
      apply K2. apply in_map. exact Hm.
  - apply get_in. rewrite Er, set_all_other; [reflexivity|]. rewrite En. intro Hc. apply in_map_iff in Hc.
    destruct Hc as (x & Ex & Hx). change "val_loss"%string with ("val_" ++ "loss")%string in Ex. apply (append_inj_l "val_") in Ex. subst x.
    apply H1. apply K2. exact Hx.
  - intros k f Hin. apply get_in. rewrite Er.
    refine (set_all_in fst snd named _ (("val_" ++ k)%string, f preds targets) Hn _).
    unfold named. apply in_map_iff. exists (k, f preds targets). split; [reflexivity|].
    apply get_in. apply metrics_get; assumption.
Qed.

Lemma nodup_entry {A} (d : list (string * A)) k v w : NoDup (map fst d) -> entry d k v -> entry d k w -> v = w.
Proof.
  intros H Hv Hw. apply (in_get _ _ _ H) in Hv. apply (in_get _ _ _ H) in Hw. congruence.
Qed.

Lemma training_row_nodup {P T} loss logging (metrics : option (list (string * (P -> T -> Q)))) p t :
  NoDup (map fst (training_row loss logging metrics p t)).
Proof.
  assert (NoDup (map fst [("loss"%string, loss)])) as H0 by (repeat constructor; intros []).
  unfold training_row. destruct metrics, logging; rewrite ?update_set_all; repeat apply set_all_nodup; exact H0.
Qed.

Lemma same_name : forall P T name (f g : P -> T -> Q) loss preds targets, f preds targets <> g preds targets ->
  let r := training_row loss None (Some [(name, f); (name, g)]) preds targets in
  entry r name (g preds targets) /\ ~ entry r name (f preds targets).
Proof.
  intros P T name f g loss preds targets H r.
  assert (entry r name (g preds targets)) as Hg.
  { apply get_in. unfold r, training_row, compute_metrics. cbn [fold_left fst snd assoc_set].
    rewrite String.eqb_refl. unfold update. cbn [fold_left fst snd]. apply get_set_same. }
  split; [exact Hg|]. intro Hf. apply H.
  exact (nodup_entry r name _ _ (training_row_nodup loss None (Some [(name, f); (name, g)]) preds targets) Hf Hg).
Qed.

Lemma named_loss : forall P T (f : P -> T -> Q) loss preds targets, f preds targets <> loss ->
  ~ entry (training_row loss None (Some [("loss"%string, f)]) preds targets) "loss" loss /\
  ~ entry (validation_row loss (Some [("loss"%string, f)]) preds targets) "val_loss" loss.
Proof.
  intros P T f loss preds targets H. split; intros [E|[]]; inversion E; congruence.
Qed.

(** ---- one epoch ---- *)
Definition value_of (k : string) (r : row) : Q := match assoc_get k r with Some v => v | None => 0%Q end.

Lemma same_keys_ok K r1 r2 : has_keys r1 K -> has_keys r2 K -> same_keys r1 r2 = true.
Proof.
  intros [N1 H1] [N2 H2]. unfold same_keys. apply andb_true_intro. split.
  - apply Nat.eqb_eq. rewrite <- (map_length fst r1), <- (map_length fst r2). apply Nat.le_antisymm.
    + apply NoDup_incl_length; [exact N1|]. intros k Hk. apply H2, H1. exact Hk.
    + apply NoDup_incl_length; [exact N2|]. intros k Hk. apply H1, H2. exact Hk.
  - apply forallb_forall. intros kv Hin. destruct (assoc_get (fst kv) r2) eqn:E; [reflexivity|].
    exfalso. apply get_none_notin in E. apply E. apply H2, H1. apply in_map. exact Hin.
Qed.
Lemma qmean_average l : qmean l = average l.
Proof. reflexivity. Qed.

Lemma mean_rows_ok K rows : rows <> [] -> Forall (fun r => has_keys r K) rows ->
  exists m, mean_rows rows = Ok m /\ has_keys m K /\ forall k, In k K -> assoc_get k m = Some (average (map (value_of k) rows)).
Proof.
  intros Hne HK. destruct rows as [|r rest]; [contradiction|].
  inversion HK as [|? ? Hr Hrest]; subst.
  exists (map (fun kv => (fst kv, average (map (value_of (fst kv)) (r :: rest)))) r).
  assert (Ef : forallb (same_keys r) rest = true).
  { apply forallb_forall. intros x Hx. apply (same_keys_ok K); [exact Hr|]. rewrite Forall_forall in Hrest. exact (Hrest x Hx). }
  split; [unfold mean_rows; rewrite Ef; reflexivity|].
  assert (Em : map fst (map (fun kv : string * Q => (fst kv, average (map (value_of (fst kv)) (r :: rest)))) r) = map fst r).
  { rewrite map_map. reflexivity. }
  destruct Hr as [N1 H1].
  assert (HKm : has_keys (map (fun kv : string * Q => (fst kv, average (map (value_of (fst kv)) (r :: rest)))) r) K).
  { split; rewrite Em; assumption. }
  split; [exact HKm|]. intros k Hk. apply in_get; [rewrite Em; exact N1|].
  apply H1 in Hk. apply in_map_iff in Hk. destruct Hk as (kv & Ekv & Hkv). apply in_map_iff. exists kv. subst k. split; [reflexivity|exact Hkv].
Qed.

Lemma average_entry_value K rows k : In k K -> Forall (fun r => has_keys r K) rows -> average_entry rows k (average (map (value_of k) rows)).
Proof.
  intros Hk H. exists (map (value_of k) rows). split; [|reflexivity].
  induction H as [|r rows [N Hr] H IH]; simpl; constructor; [|exact IH].
  apply get_in. unfold value_of. destruct (assoc_get k r) eqn:E; [reflexivity|].
  exfalso. apply get_none_notin in E. apply E, Hr, Hk.
Qed.

(** ---- the histories ---- *)
Definition past (k : string) (h : history) : list Q := match assoc_get k h with Some l => l | None => [] end.
Lemma append_row_keys r : forall h, (forall k, In k (map fst (append_row h r)) <-> In k (map fst h) \/ In k (map fst r)).
Proof.
  unfold append_row. induction r as [|[a v] r IH]; intros h k; simpl; [tauto|]. rewrite IH, keys_set. intuition.
Qed.
Lemma append_row_nodup r : forall h, NoDup (map fst h) -> NoDup (map fst (append_row h r)).
Proof. unfold append_row. induction r as [|[a v] r IH]; intros h H; simpl; [exact H|]. apply IH, nodup_set, H. Qed.
Lemma append_row_other r : forall h k, ~ In k (map fst r) -> past k (append_row h r) = past k h.
Proof.
  unfold append_row, past. induction r as [|[a v] r IH]; intros h k H; simpl; [reflexivity|].
  simpl in H. rewrite IH by tauto. rewrite get_set_other by (intro Hc; apply H; left; symmetry; exact Hc). reflexivity.
Qed.
Lemma append_row_past r : forall h k v, NoDup (map fst r) -> In (k, v) r -> past k (append_row h r) = past k h ++ [v].
Proof.
  induction r as [|[a w] r IH]; intros h k v H Hin; [destruct Hin|].
  simpl in H. inversion H as [|? ? H1 H2]; subst. destruct Hin as [E|Hin].
  - inversion E; subst. change (append_row h ((k, v) :: r)) with (append_row (assoc_set k (past k h ++ [v]) h) r).
    rewrite append_row_other by exact H1. unfold past at 1. rewrite get_set_same. reflexivity.
  - change (append_row h ((a, w) :: r)) with (append_row (assoc_set a (past a h ++ [w]) h) r).
    rewrite (IH _ k v H2 Hin). f_equal. unfold past. rewrite get_set_other; [reflexivity|].
    intro Hc. subst a. apply H1. exact (in_map fst _ _ Hin).
Qed.

Definition validated (epochs : list (list row * option (list row))) : list (list row) :=
  flat_map (fun e => match snd e with Some v => [v] | None => [] end) epochs.
Definition good_epoch K L (e : list row * option (list row)) : Prop :=
  fst e <> [] /\ Forall (fun r => has_keys r K) (fst e) /\
  match snd e with None => True | Some v => v <> [] /\ Forall (fun r => has_keys r L) v end.

Lemma epochs_status_ok K L epochs : Forall (good_epoch K L) epochs -> forall t v,
  NoDup (map fst t) -> NoDup (map fst v) ->
  exists t' v', epochs_status epochs t v = Ok (t', v') /\ NoDup (map fst t') /\ NoDup (map fst v') /\
    (forall k, In k (map fst t') <-> In k (map fst t) \/ (epochs <> [] /\ In k K)) /\
    (forall k, In k (map fst v') <-> In k (map fst v) \/ (validated epochs <> [] /\ In k L)) /\
    (forall k, In k K -> past k t' = past k t ++ map (fun e => average (map (value_of k) (fst e))) epochs) /\
    (forall k, In k L -> past k v' = past k v ++ map (fun r => average (map (value_of k) r)) (validated epochs)).
Proof.
  induction 1 as [|[rows val] epochs (G1 & G2 & G3) H IH]; intros t v Nt Nv.
  - exists t, v. simpl. repeat split; try assumption; intros; rewrite ?app_nil_r; try reflexivity; try tauto.
  - simpl in G1, G2, G3. destruct (mean_rows_ok K rows G1 G2) as (m & Em & [Nm Km] & Vm).
    assert (HK : forall k, In k K -> past k (append_row t m) = past k t ++ [average (map (value_of k) rows)]).
    { intros k Hk. apply append_row_past; [exact Nm|]. apply get_in. apply Vm. exact Hk. }
    destruct val as [vrows|].
    + destruct G3 as [G3 G4]. destruct (mean_rows_ok L vrows G3 G4) as (mv & Emv & [Nmv Kmv] & Vmv).
      assert (HL : forall k, In k L -> past k (append_row v mv) = past k v ++ [average (map (value_of k) vrows)]).
      { intros k Hk. apply append_row_past; [exact Nmv|]. apply get_in. apply Vmv. exact Hk. }
      destruct (IH (append_row t m) (append_row v mv) (append_row_nodup m t Nt) (append_row_nodup mv v Nv)) as (t' & v' & E & N1 & N2 & K1 & K2 & P1 & P2).
      exists t', v'. simpl. rewrite Em. simpl. rewrite Emv. simpl. split; [exact E|]. split; [exact N1|]. split; [exact N2|].
      split; [|split; [|split]].
      * intro k. rewrite K1, append_row_keys, Km. split; [|intros [A|[_ A]]; tauto].
        intros [[A|A]|[_ A]]; [left; exact A|right; split; [discriminate|exact A]|right; split; [discriminate|exact A]].
      * intro k. rewrite K2, append_row_keys, Kmv. split; [|intros [A|[_ A]]; tauto].
        intros [[A|A]|[_ A]]; [left; exact A|right; split; [discriminate|exact A]|right; split; [discriminate|exact A]].
      * intros k Hk. rewrite (P1 k Hk), (HK k Hk), <- app_assoc. reflexivity.
      * intros k Hk. rewrite (P2 k Hk), (HL k Hk), <- app_assoc. reflexivity.
    + destruct (IH (append_row t m) v (append_row_nodup m t Nt) Nv) as (t' & v' & E & N1 & N2 & K1 & K2 & P1 & P2).
      exists t', v'. simpl. rewrite Em. simpl. split; [exact E|]. split; [exact N1|]. split; [exact N2|].
      split; [|split; [|split]].
      * intro k. rewrite K1, append_row_keys, Km. split; [|intros [A|[_ A]]; tauto].
        intros [[A|A]|[_ A]]; [left; exact A|right; split; [discriminate|exact A]|right; split; [discriminate|exact A]].
      * intro k. rewrite K2. reflexivity.
      * intros k Hk. rewrite (P1 k Hk), (HK k Hk), <- app_assoc. reflexivity.
      * intros k Hk. rewrite (P2 k Hk). reflexivity.
Qed.

Lemma past_entry k h l : In k (map fst h) -> past k h = l -> entry h k l.
Proof.
  intros Hk E. unfold past in E. destruct (assoc_get k h) eqn:G; [subst; apply get_in; exact G|].
  exfalso. apply get_none_notin in G. contradiction.
Qed.
Lemma Forall2_map_r {A B} (R : A -> B -> Prop) (f : A -> B) l : (forall x, In x l -> R x (f x)) -> Forall2 R l (map f l).
Proof. induction l as [|x l IH]; intro H; simpl; constructor; [apply H; left; reflexivity|apply IH; intros y Hy; apply H; right; exact Hy]. Qed.

Lemma train_status_ok : forall epochs K L,
  Forall (fun e : list (list (string * Q)) * option (list (list (string * Q))) =>
    fst e <> [] /\ Forall (fun r => has_keys r K) (fst e) /\
    match snd e with None => True | Some v => v <> [] /\ Forall (fun r => has_keys r L) v end) epochs ->
  (forall k, In k K -> ~ In k L) ->
  let val := flat_map (fun e => match snd e with Some v => [v] | None => [] end) epochs in
  exists st, train_status epochs = Ok st /\ NoDup (map fst st) /\
    (forall k, In k (map fst st) <-> (epochs <> [] /\ In k K) \/ (val <> [] /\ In k L)) /\
    (forall k ms, In k K -> entry st k ms -> Forall2 (fun e m => average_entry (fst e) k m) epochs ms) /\
    (forall k ms, In k L -> entry st k ms -> Forall2 (fun v m => average_entry v k m) val ms).
Proof.
  intros epochs K L H HKL val.
  destruct (epochs_status_ok K L epochs H [] [] (NoDup_nil _) (NoDup_nil _)) as (t & v & E & Nt & Nv & Kt & Kv & Pt & Pv).
  exists (t ++ v). simpl in Kt, Kv.
  assert (Hex : existsb (fun kv : string * list Q => match assoc_get (fst kv) t with Some _ => true | None => false end) v = false).
  { destruct (existsb _ v) eqn:X; [|reflexivity]. exfalso. apply existsb_exists in X. destruct X as ([k l] & Hin & G). simpl in G.
    destruct (assoc_get k t) eqn:G2; [|discriminate]. apply get_in in G2.
    assert (In k (map fst t)) as A by exact (in_map fst _ _ G2). assert (In k (map fst v)) as B by exact (in_map fst _ _ Hin).
    apply Kt in A. apply Kv in B. destruct A as [[]|[_ A]]. destruct B as [[]|[_ B]]. exact (HKL k A B). }
  assert (NN : NoDup (map fst (t ++ v))).
  { rewrite map_app. clear -Nt Nv Kt Kv HKL. assert (forall k, In k (map fst t) -> ~ In k (map fst v)) as D.
    { intros k A B. apply Kt in A. apply Kv in B. destruct A as [[]|[_ A]]. destruct B as [[]|[_ B]]. exact (HKL k A B). }
    clear Kt Kv. induction (map fst t) as [|a l IH]; simpl; [exact Nv|]. inversion Nt; subst. constructor.
    - rewrite in_app_iff. intros [A|A]; [contradiction|]. apply (D a); [left; reflexivity|exact A].
    - apply IH; [assumption|]. intros k Hk. apply D. right. exact Hk. }
  split; [unfold train_status; rewrite E; simpl; unfold merge_status; rewrite Hex; reflexivity|].
  split; [exact NN|]. split; [|split].
  - intro k. rewrite map_app, in_app_iff, Kt, Kv. unfold val, validated. tauto.
  - intros k ms Hk Hm. unfold entry in Hm. apply in_app_iff in Hm.
    destruct Hm as [Hm|Hm].
    + assert (ms = map (fun e => average (map (value_of k) (fst e))) epochs) as ->.
      { specialize (Pt k Hk). unfold past in Pt. rewrite (in_get _ _ _ Nt Hm) in Pt. exact Pt. }
      apply Forall2_map_r. intros e He. rewrite Forall_forall in H. destruct (H e He) as (_ & He2 & _). exact (average_entry_value K (fst e) k Hk He2).
    + exfalso. assert (In k (map fst v)) as B by exact (in_map fst _ _ Hm). apply Kv in B. destruct B as [[]|[_ B]]. exact (HKL k Hk B).
  - intros k ms Hk Hm. unfold entry in Hm. apply in_app_iff in Hm.
    destruct Hm as [Hm|Hm].
    + exfalso. assert (In k (map fst t)) as B by exact (in_map fst _ _ Hm). apply Kt in B. destruct B as [[]|[_ B]]. exact (HKL k B Hk).
    + assert (ms = map (fun r => average (map (value_of k) r)) (validated epochs)) as ->.
      { specialize (Pv k Hk). unfold past in Pv. rewrite (in_get _ _ _ Nv Hm) in Pv. exact Pv. }
      apply Forall2_map_r. intros r Hr. unfold validated in Hr. apply in_flat_map in Hr. destruct Hr as (e & He & Hr).
      rewrite Forall_forall in H. destruct (H e He) as (_ & _ & He3). destruct e as [e1 e2]. cbn [snd] in He3, Hr. destruct e2 as [v0|]; [|destruct Hr].
      destruct Hr as [->|[]]. exact (average_entry_value L r k Hk (proj2 He3)).
Qed.

Lemma shared_key_raises : forall epochs K L k,
  Forall (fun e : list (list (string * Q)) * option (list (list (string * Q))) =>
    fst e <> [] /\ Forall (fun r => has_keys r K) (fst e) /\
    match snd e with None => True | Some v => v <> [] /\ Forall (fun r => has_keys r L) v end) epochs ->
  In k K -> In k L -> (exists e, In e epochs /\ snd e <> None) ->
  train_status epochs = Err TypeError.
Proof.
  intros epochs K L k H HK HL (e & He & Hv).
  destruct (epochs_status_ok K L epochs H [] [] (NoDup_nil _) (NoDup_nil _)) as (t & v & E & Nt & Nv & Kt & Kv & Pt & Pv).
  simpl in Kt, Kv. unfold train_status. rewrite E. simpl. unfold merge_status.
  assert (validated epochs <> []) as V.
  { intro Hc. destruct (snd e) as [w|] eqn:Es; [|contradiction].
    assert (In w (validated epochs)) as A
      by (unfold validated; apply in_flat_map; exists e; split; [exact He|]; destruct e as [e1 e2]; cbn [snd] in Es |- *; rewrite Es; left; reflexivity).
    rewrite Hc in A. destruct A. }
  assert (In k (map fst v)) as A by (apply Kv; right; split; assumption).
  assert (In k (map fst t)) as B by (apply Kt; right; split; [intro Hc; subst; destruct He|assumption]).
  replace (existsb _ v) with true; [reflexivity|]. symmetry. apply existsb_exists.
  apply in_map_iff in A. destruct A as ([k2 l] & E2 & Hin). simpl in E2. subst k2. exists (k, l). split; [exact Hin|].
  simpl. destruct (assoc_get k t) eqn:G; [reflexivity|]. exfalso. apply get_none_notin in G. contradiction.
Qed.
