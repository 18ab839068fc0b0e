(** A frozen optimizer changes the trainable parameters as the optimizer alone would. *)
From Coq Require Import List Arith Lia Bool String.
From Verif Require Import Lib NestedModel FreezeModel FrzModel FrzSpec.
Import ListNotations.
Open Scope list_scope.
Local Notation length := List.length.

Lemma part_mask {V} l : forall ls (vs : list V), mask_select (map (String.eqb l) ls) vs = part l ls vs.
Proof.
  unfold part. induction ls as [|a ls IH]; intros [|v vs]; try reflexivity. cbn [map mask_select combine filter fst]. rewrite (String.eqb_sym a l). destruct (String.eqb l a); cbn [map snd]; now rewrite IH.
Qed.
Definition fine (ls : list string) : Prop := Forall (fun l => l = "trainable" \/ l = "frozen")%string ls.
Definition n_train (ls : list string) : nat := length (filter (fun l => String.eqb l "trainable") ls).
Lemma labels_fine values : all_values_in_labels values ["trainable"; "frozen"]%string = Ok tt <-> fine values.
Proof.
  unfold all_values_in_labels, fine. destruct (forallb _ values) eqn:E.
  - split; [|reflexivity]. intros _. apply Forall_forall. intros l I. rewrite forallb_forall in E. specialize (E l I). cbn [existsb] in E. rewrite orb_false_r in E. apply orb_true_iff in E. rewrite !String.eqb_eq in E. tauto.
  - split; [discriminate|]. intros F. rewrite Forall_forall in F. assert (T : forallb (fun v => existsb (String.eqb v) ["trainable"; "frozen"]%string) values = true); [|congruence].
    apply forallb_forall. intros l I. destruct (F l I) as [-> | ->]; reflexivity.
Qed.
Lemma part_length {V} ls : forall vs : list V, length vs = length ls -> length (part "trainable" ls vs) = n_train ls.
Proof.
  unfold part, n_train. induction ls as [|a ls IH]; intros [|v vs] L; try discriminate L; [reflexivity|]. injection L as L. cbn [combine filter fst]. destruct (String.eqb a "trainable"); cbn [map length]; now rewrite IH.
Qed.
Lemma part_with {V} ls : forall tr vs : list V, length vs = length ls -> length tr = n_train ls -> part "trainable" ls (with_trainable ls tr vs) = tr.
Proof.
  unfold part, n_train. induction ls as [|a ls IH]; intros tr [|v vs] L N; try discriminate L; [destruct tr; [reflexivity|discriminate]|]. injection L as L.
  cbn [filter with_trainable] in *. destruct (String.eqb a "trainable") eqn:E.
  - destruct tr as [|t tr]; [discriminate|]. injection N as N. cbn [combine filter fst]. rewrite E. cbn [map snd]. now rewrite IH.
  - cbn [combine filter fst]. rewrite E. now apply IH.
Qed.
Lemma with_part {V} ls : forall vs : list V, length vs = length ls -> with_trainable ls (part "trainable" ls vs) vs = vs.
Proof.
  unfold part. induction ls as [|a ls IH]; intros [|v vs] L; try discriminate L; [reflexivity|]. injection L as L. cbn [combine filter fst with_trainable]. destruct (String.eqb a "trainable"); cbn [map snd]; now rewrite IH.
Qed.
Lemma with_length {V} ls : forall tr vs : list V, length vs = length ls -> length (with_trainable ls tr vs) = length ls.
Proof. induction ls as [|a ls IH]; intros tr [|v vs] L; try discriminate L; [reflexivity|]. injection L as L. cbn [with_trainable]. destruct (String.eqb a "trainable"), tr; cbn [length]; now rewrite IH. Qed.
Lemma with_frozen {V} ls : forall tr (vs : list V) j, length vs = length ls -> nth_error ls j = Some "frozen"%string -> nth_error (with_trainable ls tr vs) j = nth_error vs j.
Proof.
  induction ls as [|a ls IH]; intros tr [|v vs] j L N; try discriminate L; [destruct j; discriminate|]. injection L as L. cbn [with_trainable]. destruct j as [|j].
  - injection N as ->. reflexivity.
  - cbn [nth_error] in N. destruct (String.eqb a "trainable"), tr; cbn [nth_error]; now apply IH.
Qed.
Section P.
Context {V : Type} (zero : V) (add : V -> V -> V).
Hypothesis AZ : forall v, add v zero = v.
Let plus (a b : list V) := map (fun pu => add (fst pu) (snd pu)) (combine a b).
Lemma put_sum ls : fine ls -> forall vs gs tr u, length vs = length ls -> length gs = length ls -> length tr = n_train ls -> length u = n_train ls ->
  let x := put (map (String.eqb "trainable") ls) u gs in
  let m := map (String.eqb "frozen") ls in
  plus (with_trainable ls tr vs) (put m (map (fun _ => zero) (mask_select m x)) x) = with_trainable ls (plus tr u) vs.
Proof.
  unfold plus, n_train. induction ls as [|a ls IH]; intros F vs gs tr u Lv Lg Lt Lu; [destruct vs, gs; reflexivity|].
  destruct vs as [|v vs], gs as [|g gs]; try discriminate. injection Lv as Lv. injection Lg as Lg. inversion F as [|? ? A F']. subst. specialize (IH F').
  destruct A as [-> | ->].
  - cbn [filter String.eqb] in Lt, Lu. change (String.eqb "trainable" "trainable") with true in *. cbn [length] in Lt, Lu. destruct tr as [|t tr], u as [|b u]; try discriminate. injection Lt as Lt. injection Lu as Lu.
    cbn [map put mask_select with_trainable]. change (String.eqb "trainable" "trainable") with true. change (String.eqb "frozen" "trainable") with false. cbn [put mask_select combine map fst snd].
    f_equal. now apply IH.
  - change (filter (fun l => String.eqb l "trainable") ("frozen"%string :: ls)) with (filter (fun l => String.eqb l "trainable") ls) in Lt, Lu.
    cbn [map put mask_select with_trainable]. change (String.eqb "frozen" "frozen") with true. change (String.eqb "trainable" "frozen") with false. change (String.eqb "frozen" "trainable") with false. cbn [put mask_select combine map fst snd]. rewrite AZ.
    f_equal. now apply IH.
Qed.
Variables (opt : optimizer V) (ls : list string) (vs : list V).
Hypothesis UL : forall us s ps, length (fst (o_update opt us s ps)) = length us.
Hypothesis F : fine ls.
Hypothesis LV : length vs = length ls.
Let frozen_opt := chain2 (masked (map (String.eqb "trainable") ls) opt) (masked (map (String.eqb "frozen") ls) (set_to_zero zero)).
Let sub (g : list V -> list V) (tr : list V) := part "trainable" ls (g (with_trainable ls tr vs)).
Lemma run_with gs : (forall g, In g gs -> forall ps, length (g ps) = length ps) -> forall tr s, length tr = n_train ls ->
  fold_left (step add frozen_opt) gs (with_trainable ls tr vs, (s, tt)) =
  let r := fold_left (step add opt) (map sub gs) (tr, s) in (with_trainable ls (fst r) vs, (snd r, tt)).
Proof.
  induction gs as [|g gs IH]; intros GL tr s LT; [reflexivity|]. cbn [fold_left map].
  assert (G : length (g (with_trainable ls tr vs)) = length ls) by (rewrite (GL g) by (now left); now apply with_length).
  destruct (o_update opt (sub g tr) s tr) as [u s'] eqn:E.
  assert (LU : length u = n_train ls) by (rewrite <- (part_length ls (g (with_trainable ls tr vs)) G); fold (sub g tr); rewrite <- (UL (sub g tr) s tr), E; reflexivity).
  assert (ST : step add frozen_opt (with_trainable ls tr vs, (s, tt)) g = (with_trainable ls (plus tr u) vs, (s', tt))).
  { unfold step, frozen_opt, chain2, masked. cbn [o_update fst snd]. rewrite !(part_mask "trainable"), part_with by assumption. fold (sub g tr). rewrite E. cbn [o_update set_to_zero]. f_equal.
    apply (put_sum ls F vs (g (with_trainable ls tr vs)) tr u); assumption. }
  rewrite ST. assert (SO : step add opt (tr, s) (sub g) = (plus tr u, s')) by (unfold step; cbn [fst snd]; now rewrite E). rewrite SO.
  apply IH; [intros g' I; apply GL; now right|]. unfold plus. rewrite map_length, combine_length. lia.
Qed.
Lemma run_frozen gs : (forall g, In g gs -> forall ps, length (g ps) = length ps) ->
  fst (run add frozen_opt vs gs) = with_trainable ls (fst (run add opt (part "trainable" ls vs) (map sub gs))) vs.
Proof.
  intros GL. unfold run. change (o_init frozen_opt vs) with (o_init opt (mask_select (map (String.eqb "trainable") ls) vs), tt). rewrite part_mask.
  pose proof (run_with gs GL (part "trainable" ls vs) (o_init opt (part "trainable" ls vs)) (part_length ls vs LV)) as R. rewrite with_part in R by exact LV. exact (f_equal fst R).
Qed.
End P.

Theorem frozen_run : forall V zero add (opt : optimizer V) f params frozen gs, (forall v, add v zero = v) ->
  freeze_optimizer zero params opt (Some f) = Ok frozen ->
  (forall us s ps, length (fst (o_update opt us s ps)) = length us) -> (forall g, In g gs -> forall ps, length (g ps) = length ps) ->
  let ls := labels_of f params in let vs := map snd (leaves params) in
  let alone := map (fun g tr => part "trainable" ls (g (with_trainable ls tr vs))) gs in
  fst (run add frozen vs gs) = with_trainable ls (fst (run add opt (part "trainable" ls vs) alone)) vs.
Proof.
  intros V zero add opt f params frozen gs AZ E UL GL ls vs alone. unfold freeze_optimizer in E. fold (labels_of f params) in E. fold ls in E.
  destruct (all_values_in_labels ls ["trainable"; "frozen"]%string) as [[]|] eqn:A; [|discriminate]. apply labels_fine in A. cbn [bind] in E. injection E as <-.
  assert (LV : length vs = length ls) by (unfold vs, ls, labels_of; now rewrite !map_length).
  exact (run_frozen zero add AZ opt ls vs UL A LV gs GL).
Qed.
Theorem frozen_unchanged : forall V zero add (opt : optimizer V) f params frozen gs j, (forall v, add v zero = v) ->
  freeze_optimizer zero params opt (Some f) = Ok frozen ->
  (forall us s ps, length (fst (o_update opt us s ps)) = length us) -> (forall g, In g gs -> forall ps, length (g ps) = length ps) ->
  nth_error (labels_of f params) j = Some "frozen"%string ->
  nth_error (fst (run add frozen (map snd (leaves params)) gs)) j = nth_error (map snd (leaves params)) j.
Proof.
  intros V zero add opt f params frozen gs j AZ E UL GL N. rewrite (frozen_run V zero add opt f params frozen gs AZ E UL GL).
  apply with_frozen; [|exact N]. unfold labels_of. now rewrite !map_length.
Qed.
Theorem freeze_labels : forall V zero (opt : optimizer V) f params,
  (exists o, freeze_optimizer zero params opt (Some f) = Ok o) /\ (forall p v, In (p, v) (leaves params) -> f p v = "trainable" \/ f p v = "frozen")%string \/
  freeze_optimizer zero params opt (Some f) = Err ValueError /\ (exists p v, In (p, v) (leaves params) /\ f p v <> "trainable" /\ f p v <> "frozen")%string.
Proof.
  intros V zero opt f params. unfold freeze_optimizer, all_values_in_labels. set (ls := map _ (leaves params)). destruct (forallb _ ls) eqn:E.
  - left. split; [eexists; reflexivity|]. intros p v I. rewrite forallb_forall in E. specialize (E (f p v)). cbn [existsb] in E. rewrite orb_false_r in E.
    assert (J : In (f p v) ls) by (unfold ls; apply in_map_iff; now exists (p, v)). specialize (E J). apply orb_true_iff in E. rewrite !String.eqb_eq in E. exact E.
  - right. split; [reflexivity|].
    assert (X : exists l, In l ls /\ existsb (String.eqb l) ["trainable"; "frozen"]%string = false).
    { clearbody ls. induction ls as [|l ls IH]; [discriminate|]. cbn [forallb] in E. destruct (existsb (String.eqb l) ["trainable"; "frozen"]%string) eqn:X; [|exists l; split; [now left|exact X]].
      destruct (IH E) as (l' & I & Y). exists l'. split; [now right|exact Y]. }
    destruct X as (l & I & X). unfold ls in I. apply in_map_iff in I. destruct I as ([p v] & <- & I). exists p, v. split; [exact I|]. cbn [existsb fst snd] in X. rewrite orb_false_r in X. apply orb_false_iff in X. rewrite !String.eqb_neq in X. exact X.
Qed.
Theorem freeze_nothing : forall V zero (opt : optimizer V) params, freeze_optimizer zero params opt None = Ok opt.
Proof. reflexivity. Qed.
