(** Proofs about the heads of the transformers of SNGP. *)
From Coq Require Import List Arith Bool Reals Lra Lia.
From Verif Require Import Lib LapModel SngpModel TempSpec PredSpec SngpSpec LapProofs2 SngpProofs SngpProofs4 TfmModel TfmHeadModel TfmHeadSpec.
Import ListNotations.
Open Scope R_scope.

(** ---- nonlinearities ---- *)
Lemma squash_eq a y : activation a y = squash a y.
Proof.
  unfold activation, squash. destruct a; [|  |].
  3: { unfold tanh, sinh, cosh. field. pose proof (exp_pos y). pose proof (exp_pos (- y)). lra. }
  all: unfold Rmax; destruct (Rle_dec y 0), (Rlt_dec 0 y); lra.
Qed.
Lemma cosh_ge_1 x : 1 <= cosh x.
Proof.
  unfold cosh. pose proof (exp_pos x) as A. assert (E : exp x * exp (- x) = 1) by (rewrite <- exp_plus, Rplus_opp_r; apply exp_0).
  pose proof (exp_pos (- x)) as B. assert (0 <= (exp x - exp (- x)) ^ 2) by apply pow2_ge_0. nra.
Qed.
Lemma cosh2_sinh2 x : cosh x * cosh x - sinh x * sinh x = 1.
Proof. unfold cosh, sinh. assert (E : exp x * exp (- x) = 1) by (rewrite <- exp_plus, Rplus_opp_r; apply exp_0). nra. Qed.
Lemma tanh_bounds x : -1 < tanh x < 1.
Proof.
  unfold tanh. pose proof (cosh_ge_1 x) as C. pose proof (exp_pos x) as A. pose proof (exp_pos (- x)) as B.
  assert (sinh x < cosh x) by (unfold sinh, cosh; lra). assert (- cosh x < sinh x) by (unfold sinh, cosh; lra).
  split; [apply Rmult_lt_reg_r with (cosh x)|apply Rmult_lt_reg_r with (cosh x)]; try lra; unfold Rdiv; rewrite Rmult_assoc, Rinv_l; lra.
Qed.
Lemma tanh_derivative x : derivable_pt_lim tanh x (/ (cosh x * cosh x)).
Proof.
  pose proof (cosh_ge_1 x) as C.
  replace (/ (cosh x * cosh x)) with ((cosh x * cosh x - sinh x * sinh x) / Rsqr (cosh x)).
  - change tanh with (sinh / cosh)%F. apply derivable_pt_lim_div; [apply derivable_pt_lim_sinh|apply derivable_pt_lim_cosh|lra].
  - rewrite cosh2_sinh2. unfold Rsqr. field. lra.
Qed.
Lemma tanh_step x y : x < y -> 0 <= tanh y - tanh x <= y - x.
Proof.
  intros L. destruct (MVT_cor2 tanh (fun c => / (cosh c * cosh c)) x y L (fun c _ => tanh_derivative c)) as (c & E & _).
  pose proof (cosh_ge_1 c) as C. assert (P : 1 <= cosh c * cosh c) by nra.
  assert (0 < / (cosh c * cosh c)) by (apply Rinv_0_lt_compat; lra). assert (/ (cosh c * cosh c) <= 1) by (rewrite <- Rinv_1; apply Rinv_le_contravar; lra).
  rewrite E. split; nra.
Qed.
Lemma activation_lipschitz a x y : (activation a x - activation a y) * (activation a x - activation a y) <= (x - y) * (x - y).
Proof.
  unfold activation. destruct a.
  3: { destruct (Rtotal_order x y) as [L|[->|L]]; [|right; ring|].
       - pose proof (tanh_step x y L). nra.
       - pose proof (tanh_step y x L). nra. }
  all: pose proof (Rle_0_sqr (x - y)) as Z; unfold Rsqr in Z; unfold Rmax; destruct (Rle_dec x 0) as [A|A], (Rle_dec y 0) as [B|B]; try apply Rnot_le_lt in A; try apply Rnot_le_lt in B; nra.
Qed.

(** ---- features ---- *)
Lemma text_vectors_spec a e xs : text_vectors a e = Ok xs -> length xs = n_texts a e /\ forall i x, nth_error xs i = Some x -> stands_for a e i x.
Proof.
  unfold text_vectors, n_texts, stands_for. destruct a; try (intros E; injection E as <-; split; [reflexivity|intros i x H; exact H]).
  generalize (e_hidden e) as l. clear e. intros l. revert xs. induction l as [|r l IH]; intros xs E; cbn [mapM] in E.
  - injection E as <-. split; [reflexivity|]. intros [|i] x H; discriminate.
  - destruct r as [|h t]; [discriminate|]. cbn [bind] in E. destruct (mapM _ l) as [ys|er]; cbn [bind] in E; [|discriminate]. injection E as <-.
    destruct (IH ys eq_refl) as [A B]. split; [cbn; f_equal; exact A|]. intros [|i] x H; [injection H as <-; exists t; reflexivity|exact (B i x H)].
Qed.
Lemma nth_error_combine_seq {A} (l : list A) : forall i b, nth_error (combine (seq b (length l)) l) i = option_map (fun x => ((b + i)%nat, x)) (nth_error l i).
Proof.
  induction l as [|x l IH]; intros [|i] b; cbn; try reflexivity; [rewrite Nat.add_0_r; reflexivity|]. rewrite IH. rewrite Nat.add_succ_r. reflexivity.
Qed.

Lemma features_at a n_in kernel bias rate train keep e fs : features a n_in kernel bias rate train keep e = Ok fs ->
  length fs = n_texts a e /\
  forall i f, nth_error fs i = Some f -> exists x, stands_for a e i x /\ f = dropout rate (negb train) (keep i) (fun j => activation a (dense n_in kernel bias x j)).
Proof.
  unfold features. destruct (text_vectors a e) as [xs|er] eqn:T; cbn [rmap]; [|discriminate]. intros E. injection E as <-.
  destruct (text_vectors_spec _ _ _ T) as [A B]. split; [rewrite map_length, combine_length, seq_length, Nat.min_id; exact A|].
  intros i f H. rewrite nth_error_map, nth_error_combine_seq in H. cbn [Nat.add] in H. destruct (nth_error xs i) as [x|] eqn:N; cbn in H; [|discriminate].
  injection H as <-. exists x. split; [apply B; exact N|reflexivity].
Qed.

Theorem feature_values : forall a n_in kernel bias rate train keep e fs, features a n_in kernel bias rate train keep e = Ok fs ->
  length fs = n_texts a e /\
  forall i f, nth_error fs i = Some f -> exists x, stands_for a e i x /\
  forall j, let y := squash a (rover n_in (fun k => x k * kernel k j) + bias j) in
    (train = false -> f j = y) /\ (train = true -> 0 <= rate < 1 -> f j = if keep i j then y / (1 - rate) else if Req_EM_T rate 0 then y else 0) /\
    (train = true -> rate = 1 -> f j = 0).
Proof.
  intros a n_in kernel bias rate train keep e fs H. destruct (features_at _ _ _ _ _ _ _ _ _ H) as [L F]. split; [exact L|].
  intros i f N. destruct (F i f N) as (x & S & ->). exists x. split; [exact S|]. intros j y.
  assert (Y : activation a (dense n_in kernel bias x j) = y) by (unfold y; rewrite <- squash_eq; reflexivity).
  unfold dropout. rewrite Y. split; [|split]; intros T; rewrite T; [reflexivity| |]; intros R; cbn [negb];
    (destruct (Req_EM_T rate 0) as [Z|Z]; [first [lra|subst rate; destruct (keep i j); [field|reflexivity]]|]).
  - destruct (Req_EM_T rate 1); [lra|reflexivity].
  - destruct (Req_EM_T rate 1); [reflexivity|lra].
Qed.

Theorem feature_bounds : forall a n_in kernel bias rate train keep e fs i f j, features a n_in kernel bias rate train keep e = Ok fs -> nth_error fs i = Some f ->
  0 <= rate < 1 -> let c := if train then / (1 - rate) else 1 in
  match a with Roberta => - c < f j < c | Bert | DistilBert => 0 <= f j end.
Proof.
  intros a n_in kernel bias rate train keep e fs i f j H N R c. destruct (features_at _ _ _ _ _ _ _ _ _ H) as [_ F]. destruct (F i f N) as (x & _ & ->).
  set (z := dense n_in kernel bias x j). unfold dropout.
  assert (C : 1 <= / (1 - rate)) by (rewrite <- Rinv_1 at 1; apply Rinv_le_contravar; lra).
  change (activation a (dense n_in kernel bias x j)) with (activation a z).
  destruct a; cbn [activation]; [| |].
  3: { pose proof (tanh_bounds z). unfold c. destruct train; cbn [negb]; [|lra].
       destruct (Req_EM_T rate 0); [lra|]. destruct (Req_EM_T rate 1); [lra|]. destruct (keep i j); [|lra]. unfold Rdiv. split; nra. }
  all: assert (P : 0 <= Rmax z 0) by apply Rmax_r; destruct (negb train); [exact P|]; destruct (Req_EM_T rate 0); [exact P|]; destruct (Req_EM_T rate 1); [lra|];
    destruct (keep i j); [unfold Rdiv; nra|lra].
Qed.

Theorem feature_distance : forall a n_in n_out kernel bias rate keep keep' e e' fs fs' i i' f f' x x' s,
  features a n_in kernel bias rate false keep e = Ok fs -> features a n_in kernel bias rate false keep' e' = Ok fs' ->
  nth_error fs i = Some f -> nth_error fs' i' = Some f' -> stands_for a e i x -> stands_for a e' i' x' -> gain_at_most n_in n_out kernel s ->
  norm n_out (fun j => f j - f' j) <= s * norm n_in (fun k => x k - x' k).
Proof.
  intros a n_in n_out kernel bias rate keep keep' e e' fs fs' i i' f f' x x' s H H' N N' S S' G.
  destruct (features_at _ _ _ _ _ _ _ _ _ H) as [_ F]. destruct (F i f N) as (x0 & S0 & ->).
  destruct (features_at _ _ _ _ _ _ _ _ _ H') as [_ F']. destruct (F' i' f' N') as (x0' & S0' & ->).
  assert (U : forall e i u v, stands_for a e i u -> stands_for a e i v -> u = v).
  { clear. intros e i u v. unfold stands_for. destruct a; [| intros [m A] [m' B]; rewrite A in B; injection B as -> _; reflexivity |];
      intros A B; rewrite A in B; injection B as ->; reflexivity. }
  rewrite (U _ _ _ _ S0 S), (U _ _ _ _ S0' S'). cbn [negb dropout].
  eapply Rle_trans; [|apply (G (fun k => x k - x' k))]. unfold norm. apply sqrt_le_1_alt. unfold inner. apply rover_le. intros j Hj.
  eapply Rle_trans; [apply activation_lipschitz|]. right. unfold dense, kernel_apply. change isum with rover.
  assert (L : rover n_in (fun k => (x k - x' k) * kernel k j) = rover n_in (fun k => x k * kernel k j) - rover n_in (fun k => x' k * kernel k j)).
  { rewrite <- rover_sub. apply rover_ext. intros k _. ring. }
  rewrite L. ring.
Qed.

Lemma gain_normalized n_in n_out iteration m upd ini w u v s : gain_at_most n_in n_out w s ->
  gain_at_most n_in n_out (normalized_kernel n_in n_out iteration m upd ini w u v) s.
Proof. intros G x. eapply Rle_trans; [apply normalized_never_grows|apply G]. Qed.
Theorem feature_distance_normalized : forall a n_in n_out iteration m upd ini w u v bias rate keep keep' e e' fs fs' i i' f f' x x' s,
  let kernel := normalized_kernel n_in n_out iteration m upd ini w u v in
  features a n_in kernel bias rate false keep e = Ok fs -> features a n_in kernel bias rate false keep' e' = Ok fs' ->
  nth_error fs i = Some f -> nth_error fs' i' = Some f' -> stands_for a e i x -> stands_for a e' i' x' -> gain_at_most n_in n_out w s ->
  norm n_out (fun j => f j - f' j) <= s * norm n_in (fun k => x k - x' k).
Proof.
  intros a n_in n_out iteration m upd ini w u v bias rate keep keep' e e' fs fs' i i' f f' x x' s kernel H H' N N' S S' G.
  exact (feature_distance _ _ _ _ _ _ _ _ _ _ _ _ _ _ _ _ _ _ _ H H' N N' S S' (gain_normalized _ _ _ _ _ _ _ _ _ _ G)).
Qed.

(** ---- inputs ---- *)
Lemma nth_error_same {A} (l : list A) : forall m, (forall k, nth_error l k = nth_error m k) -> l = m.
Proof.
  induction l as [|x l IH]; intros [|y m] H; try reflexivity; try (specialize (H 0%nat); discriminate).
  pose proof (H 0%nat) as E. injection E as ->. f_equal. apply IH. intros k. exact (H (S k)).
Qed.
Lemma filled_like v ids m : filled_with v ids m -> m = like v ids.
Proof.
  unfold filled_with, like. induction 1 as [|row r ids m [L F] _ IH]; [reflexivity|]. cbn [map]. rewrite <- IH. f_equal.
  revert row L. induction F as [|y r <- F IHr]; intros [|z row] L; cbn in L; try discriminate; [reflexivity|]. cbn [map]. rewrite <- (IHr row); [reflexivity|lia].
Qed.
Lemma numbered_seq ids m : numbered ids m -> m = map (fun row => seq 0 (length row)) ids.
Proof.
  unfold numbered. induction 1 as [|row r ids m [L F] _ IH]; [reflexivity|]. cbn [map]. rewrite <- IH. f_equal.
  apply nth_error_same. intros k. destruct (Nat.lt_ge_cases k (length row)) as [H|H].
  - rewrite (F k H). symmetry. rewrite nth_error_nth' with (d := 0%nat) by (rewrite seq_length; exact H). rewrite seq_nth by exact H. reflexivity.
  - rewrite (proj2 (nth_error_None r k)) by lia. symmetry. apply nth_error_None. rewrite seq_length. exact H.
Qed.
Lemma ones layers heads (h : list (list nat)) : length h = layers -> Forall (fun r => length r = heads /\ Forall (eq 1%nat) r) h -> h = repeat (repeat 1%nat heads) layers.
Proof.
  intros <- F. induction F as [|r h [L G] F IH]; [reflexivity|]. cbn [length repeat]. rewrite <- IH. f_equal. subst heads.
  clear -G. induction G as [|y r <- G IH]; [reflexivity|]. cbn. f_equal. exact IH.
Qed.

Theorem inputs_written_out {M} : forall encode others updated a layers heads rp n_in kernel bias rate cd rd keep t train (mutable : option M) mask types positions hm,
  t_mask t = None -> t_types t = None -> t_positions t = None -> t_heads t = None -> a <> DistilBert ->
  filled_with 1 (t_ids t) mask -> filled_with 0 (t_ids t) types ->
  (a = Bert -> numbered (t_ids t) positions) -> (a = Roberta -> positions = rp (t_ids t)) ->
  length hm = layers -> Forall (fun r => length r = heads /\ Forall (eq 1%nat) r) hm ->
  sngp_call encode others updated a layers heads rp n_in kernel bias rate cd rd keep t train mutable =
  sngp_call encode others updated a layers heads rp n_in kernel bias rate cd rd keep
    {| t_ids := t_ids t; t_mask := Some mask; t_types := Some types; t_positions := Some positions; t_heads := Some hm |} train mutable.
Proof.
  intros encode others updated a layers heads rp n_in kernel bias rate cd rd keep [ids m ty p h] train mutable mask types positions hm. cbn [t_ids t_mask t_types t_positions t_heads].
  intros -> -> -> -> D F1 F0 FB FR L1 L2. apply filled_like in F1. apply filled_like in F0. rewrite (ones _ _ _ L1 L2), F1, F0.
  destruct a; [apply numbered_seq in FB; [|reflexivity]; rewrite FB; reflexivity|congruence|rewrite (FR eq_refl); reflexivity].
Qed.
Theorem distilbert_inputs {M} : forall encode others updated layers heads rp n_in kernel bias rate cd rd keep t train (mutable : option M) mask,
  (t_types t <> None \/ t_positions t <> None -> sngp_call encode others updated DistilBert layers heads rp n_in kernel bias rate cd rd keep t train mutable = Err TypeError) /\
  (t_types t = None -> t_positions t = None -> t_mask t = None \/ t_mask t = Some mask -> filled_with 1 (t_ids t) mask -> forall hm,
   sngp_call encode others updated DistilBert layers heads rp n_in kernel bias rate cd rd keep t train mutable =
   sngp_call encode others updated DistilBert layers heads rp n_in kernel bias rate cd rd keep
     {| t_ids := t_ids t; t_mask := Some mask; t_types := None; t_positions := None; t_heads := hm |} train mutable).
Proof.
  intros encode others updated layers heads rp n_in kernel bias rate cd rd keep [ids m ty p h] train mutable mask. cbn [t_ids t_mask t_types t_positions t_heads]. split.
  - intros H. unfold sngp_call, accepted. cbn [t_types t_positions]. destruct ty as [ty|]; [reflexivity|]. destruct p as [p|]; [reflexivity|]. destruct H; congruence.
  - intros -> -> H F hm. apply filled_like in F. destruct H as [->| ->]; [rewrite F|]; reflexivity.
Qed.

Theorem manager_outputs {M} : forall encode others updated a layers heads rp n_in kernel bias rate cd rd keep t train (mutable : option M) fs,
  accepted a t = Ok tt -> let k := fill_inputs a layers heads rp t in features a n_in kernel bias rate train keep (encode k train) = Ok fs ->
  let run := sngp_manager encode others updated a layers heads rp n_in kernel bias rate cd rd keep t train mutable in
  let resolved := match rd with Some b => b | None => cd end in
  (train = false -> run = Ok (Plain_out fs, None)) /\
  (forall m, train = true -> mutable = Some m -> resolved = true -> run = Ok (Plain_out fs, Some (updated k m))) /\
  (forall m, train = true -> mutable = Some m -> resolved = false -> run = Ok (Tuple_out fs (others (encode k train)), Some (updated k m))).
Proof.
  intros encode others updated a layers heads rp n_in kernel bias rate cd rd keep t train mutable fs A k F run resolved.
  unfold run, sngp_manager, sngp_call. rewrite A. cbn [bind]. fold k. rewrite F. cbn [rmap bind]. fold resolved.
  split; [intros ->|split; intros m -> ->]; [|intros ->; reflexivity|intros ->; reflexivity].
  destruct resolved, mutable; reflexivity.
Qed.
