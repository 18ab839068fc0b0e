(** Proofs about fits of SWAG that continue earlier ones. *)
From Coq Require Import List Arith ZArith QArith Bool String Lia.
From Verif Require Import Lib TrainModel McmcModel DescModel DescSpec SwagModel SwagSpec SwagProofs4 SwagContModel.
Import ListNotations.
Open Scope list_scope.
Local Notation length := List.length.

Section S.
Context {P M X T O K G OS Pr Un C : Type}.
Variable predict : O -> Pr.
Variable diff : (P -> Q) -> P -> G.
Variable gadd : G -> G -> G.
Variable gdiv : G -> nat -> G.
Variable zeros_like : G -> G.
Variable clip_by : Q -> G -> G.
Variable ravel : P -> list Q.
Notation args := (swag_args P M X T O K G OS Pr Un).
Notation stored := (stored P M G OS).
Notation fits := (swag_fits P M X T O K G OS Pr Un predict diff gadd gdiv zeros_like clip_by ravel).
Notation continue := (continue_swag P M X T O K G OS Pr Un predict diff gadd gdiv zeros_like clip_by ravel).

Lemma fits_app l : forall l' st, fits (l ++ l') st = bind (fits l st) (fits l').
Proof.
  induction l as [|a l IH]; intros l' st; [reflexivity|]. cbn [app swag_fits].
  destruct (continue a st) as [s|e]; cbn [bind]; [apply IH|reflexivity].
Qed.

Theorem last_fit (net : P -> option K -> bool -> option M -> X -> O * M) (log_prior : P -> Q)
    (calibrator : option (bool -> option C -> O -> O * C)) calib_mutable (log_prob : O -> list T -> list Q) n_train n_val
    (metrics : option (list (Pr -> option Un -> list T -> Q))) training_metrics (l : list args) (a : args) (st st' : stored) d :
  (forall f g p, (forall q, f q = g q) -> diff f p = diff g p) -> (forall p, length (ravel p) = d) ->
  sa_setting a = map_setting P M X T O K Pr Un net log_prior calibrator calib_mutable log_prob n_train n_val metrics training_metrics ->
  fits (l ++ [a]) st = Ok st' ->
  exists st1, fits l st = Ok st1 /\
  let outputs := fun key p m x => let o := fst (net p (Some key) true m x) in
    match calibrator with None => o | Some f => fst (f false (match calib_mutable with Some c => c | None => None end) o) end in
  let update := gradient_update diff (fun g => g) (sa_opt a) (sa_keys a)
    (fun key p m (b : X * list T) => (- (total_of (log_prob (outputs key p m (fst b)) (snd b)) * (inject_Z (Z.of_nat n_train) / inject_Z (Z.of_nat (length (snd b)))) + log_prior p))%Q)
    (fun key p m b => match m with Some _ => Some (snd (net p (Some key) true m (fst b))) | None => None end) in
  let p1 := params (st_train st1) in let m1 := mutable (st_train st1) in
  let bs := sa_batches a in
  let at_ := fun e i => descend update 0 (before e i bs) (p1, sa_init a p1, m1) in
  let E := n_epochs (sa_cfg a) in let B := length bs in let rank := sa_rank a in
  let s' := st_train st' in
  (2 <= rank < E)%nat /\ (0 < B)%nat
  /\ (params s', opt_state s', mutable s') = at_ E 0%nat /\ step s' = (E * B)%nat
  /\ length (st_stats st') = d
  /\ forall j, (j < d)%nat ->
     let x := fun e i => nth j (ravel (fst (fst (at_ e (S i))))) 0%Q in
     exists w, nth_error (st_stats st') j = Some (Some w)
     /\ (sw_mean w * natq (E ^ B) == weighted B E x)%Q
     /\ ((swag_var w + sw_mean w * sw_mean w) * natq (E ^ B) == weighted B E (fun e i => x e i * x e i))%Q
     /\ length (sw_dev w) = rank
     /\ (forall k, (k < rank)%nat -> exists m, let q := (E * B - rank + k)%nat in let e := (q / B)%nat in let i := (q mod B)%nat in
           nth k (sw_dev w) 0%Q = (x e i - m)%Q /\ (0 < e)%nat
           /\ (m * natq (e ^ (B - 1 - i) * (e + 1) ^ S i) == weighted B e x + sum_below (S i) (fun k => swag_weight B e k * x e k))%Q).
Proof.
  intros HD HR HS H. rewrite fits_app in H. destruct (fits l st) as [st1|e] eqn:E1; cbn [bind] in H; [|discriminate].
  exists st1. split; [reflexivity|]. cbn [swag_fits] in H. unfold continue_swag in H. rewrite HS in H.
  destruct (swag_fit _ _ _ _ _ _ _ _ _ _ _ _ _ _ _ _ _ _ _ _ _ _ _ _ _ _ _) as [[[[s' w] ms] mvs]|e] eqn:F; cbn [bind] in H; [|discriminate].
  injection H as <-. cbn [st_train st_stats].
  destruct (@swag_fit_spec P M X T O K G OS Pr Un C predict _ diff gadd gdiv zeros_like clip_by _ ravel net log_prior calibrator calib_mutable log_prob n_train n_val metrics
    training_metrics _ _ _ _ _ _ _ _ _ _ _ d HD HR F) as [A1 [A2 [_ [A4 [A5 [A6 A7]]]]]].
  split; [exact A1|]. split; [exact A2|]. split; [exact A4|]. split; [exact A5|]. split; [exact A6|]. exact A7.
Qed.

Theorem only_parameters (l : list args) (st st2 : stored) : l <> [] ->
  params (st_train st) = params (st_train st2) -> mutable (st_train st) = mutable (st_train st2) ->
  fits l st = fits l st2.
Proof.
  intros N HP HM. destruct l as [|a l]; [congruence|]. cbn [swag_fits]. f_equal. unfold continue_swag, to_swag. now rewrite HP, HM.
Qed.

Lemma descend_app {S B} (u : nat -> S -> B -> S) l : forall j l' s, descend u j (l ++ l') s = descend u (j + length l) l' (descend u j l s).
Proof. induction l as [|b l IH]; intros j l' s; cbn; [now rewrite Nat.add_0_r|]. rewrite IH. f_equal. lia. Qed.
Lemma descend_ext {S B} (u v : nat -> S -> B -> S) l : (forall j k s b, u j s b = v k s b) -> forall j k s, descend u j l s = descend v k l s.
Proof. intros H. induction l as [|b l IH]; intros j k s; cbn; [reflexivity|]. rewrite (H j k). apply IH. Qed.
Lemma passes_add {B} (bs : list B) m n : passes (m + n) bs = passes m bs ++ passes n bs.
Proof. unfold passes. now rewrite repeat_app, concat_app. Qed.
Lemma descend_os (u : nat -> P * OS * option M -> X * list T -> P * OS * option M) l :
  (forall j p o m b, snd (fst (u j (p, o, m) b)) = o) -> forall j p o m, exists p' m', descend u j l (p, o, m) = (p', o, m').
Proof.
  intros H. induction l as [|b l IH]; intros j p o m; cbn; [eauto|]. specialize (H j p o m b). destruct (u j (p, o, m) b) as [[p1 o1] m1]. cbn in H. subst o1. apply IH.
Qed.

Theorem path_of_two (net : P -> option K -> bool -> option M -> X -> O * M) (log_prior : P -> Q)
    (calibrator : option (bool -> option C -> O -> O * C)) calib_mutable (log_prob : O -> list T -> list Q) n_train n_val
    (metrics : option (list (Pr -> option Un -> list T -> Q))) training_metrics (a b c : args) (st s2 s1 : stored) :
  (forall f g p, (forall q, f q = g q) -> diff f p = diff g p) -> (forall p p', length (ravel p) = length (ravel p')) ->
  Forall (fun x => sa_setting x = map_setting P M X T O K Pr Un net log_prior calibrator calib_mutable log_prob n_train n_val metrics training_metrics /\
    sa_batches x = sa_batches a /\ sa_opt x = sa_opt a /\
    sa_init x = sa_init a) [a; b; c] ->
  (forall p k k' t m x, net p (Some k) t m x = net p (Some k') t m x) ->
  (forall p q, sa_init a p = sa_init a q) -> (forall g o p, snd (sa_opt a g o p) = o) ->
  n_epochs (sa_cfg c) = (n_epochs (sa_cfg a) + n_epochs (sa_cfg b))%nat ->
  fits [a; b] st = Ok s2 -> fits [c] st = Ok s1 ->
  params (st_train s2) = params (st_train s1) /\ mutable (st_train s2) = mutable (st_train s1).
Proof.
  intros HD HR HF HK HI HO HE H2 H1.
  inversion HF as [|? ? [Sa _] HF1]; subst. inversion HF1 as [|? ? [Sb [Bb [Ob Ib]]] HF2]; subst. inversion HF2 as [|? ? [Sc [Bc [Oc Ic]]] _]; subst. clear HF HF1 HF2.
  set (p0 := params (st_train st)). assert (HR' : forall p, length (ravel p) = length (ravel p0)) by (intros; apply HR).
  destruct (last_fit net log_prior calibrator calib_mutable log_prob n_train n_val metrics training_metrics [a] b st s2 _ HD HR' Sb H2) as [sm [Hm R2]].
  destruct (last_fit net log_prior calibrator calib_mutable log_prob n_train n_val metrics training_metrics [] a st sm _ HD HR' Sa Hm) as [s0 [H0 Rm]].
  destruct (last_fit net log_prior calibrator calib_mutable log_prob n_train n_val metrics training_metrics [] c st s1 _ HD HR' Sc H1) as [s0' [H0' R1]].
  cbn in H0, H0'. injection H0 as <-. injection H0' as <-.
  cbv zeta in R2, Rm, R1. destruct R2 as [_ [_ [R2 _]]]. destruct Rm as [_ [_ [Rm _]]]. destruct R1 as [_ [_ [R1 _]]].
  rewrite Bb, Ob, Ib in R2. rewrite Bc, Oc, Ic, HE in R1. unfold before in R2, Rm, R1. cbn [firstn] in R2, Rm, R1. rewrite !app_nil_r in R2, Rm, R1.
  rewrite passes_add, descend_app in R1.
  match type of R1 with _ = descend ?u _ _ (descend ?u _ _ _) => set (uc := u) in R1 end.
  match type of Rm with _ = descend ?u _ _ _ => set (ua := u) in Rm end.
  match type of R2 with _ = descend ?u _ _ _ => set (ub := u) in R2 end.
  assert (Eac : forall j k s x, uc j s x = ua k s x).
  { intros j k [[p o] m] x. unfold uc, ua, gradient_update. f_equal.
    - f_equal. apply HD. intros q. now rewrite (HK q (sa_keys c j) (sa_keys a k)).
    - now rewrite (HK p (sa_keys c j) (sa_keys a k)). }
  assert (Ebc : forall j k s x, uc j s x = ub k s x).
  { intros j k [[p o] m] x. unfold uc, ub, gradient_update. f_equal.
    - f_equal. apply HD. intros q. now rewrite (HK q (sa_keys c j) (sa_keys b k)).
    - now rewrite (HK p (sa_keys c j) (sa_keys b k)). }
  rewrite (descend_ext uc ua _ Eac 0 0) in R1. rewrite <- Rm in R1. rewrite (descend_ext uc ub _ Ebc _ 0) in R1.
  destruct (descend_os ua (passes (n_epochs (sa_cfg a)) (sa_batches a)) (fun j p o m b => HO _ o p) 0 p0 (sa_init a p0) (mutable (st_train st))) as [p' [m' Q]].
  fold p0 in Rm. rewrite Q in Rm. injection Rm as _ Om _. rewrite Om in R1. rewrite (HI p0 (params (st_train sm))) in R1.
  rewrite <- R2 in R1. injection R1 as A _ B. split; symmetry; assumption.
Qed.
End S.
