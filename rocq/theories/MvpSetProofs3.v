(** Proofs: no number of buckets makes the calibration error of BatchMVP small when the coverage is no possible share. *)
From Coq Require Import List Arith ZArith QArith Qabs Bool Lia Lqa.
From Verif Require Import Lib QuantModel ConfRegModel ConfClassModel MultiModel MultiSpec MultiSpec3 OneShotModel OneShotSpec IterModel IterSpec MvpSetModel MvpSetSpec MvpSetProofs MvpSetProofs2.
Import ListNotations.
Open Scope Q_scope.

Lemma square_le d x : 0 <= d -> d <= Qabs x -> d * d <= x * x.
Proof. intros D H. revert H. apply Qabs_case; intros S H; nra. Qed.
Lemma singletons (ss : list Q) : Forall2 (fun ry s => nth_error (fst ry) (snd ry) = Some s) (combine (map (fun s => [s]) ss) (repeat 0%nat (length ss))) ss.
Proof. induction ss; cbn; constructor; [reflexivity|assumption]. Qed.
Lemma half_away m k : Nat.odd m = true -> 1 # 2 <= Qabs ((1 # 2) * inject_Z (Z.of_nat m) - inject_Z (Z.of_nat k)).
Proof.
  intros O. apply Nat.odd_spec in O. destruct O as [j O].
  setoid_replace ((1 # 2) * inject_Z (Z.of_nat m) - inject_Z (Z.of_nat k)) with ((1 # 2) * inject_Z (Z.of_nat m - 2 * Z.of_nat k)).
  2: { unfold Zminus. rewrite inject_Z_plus, inject_Z_opp, inject_Z_mult. change (inject_Z 2) with 2. ring. }
  rewrite Qabs_Qmult. change (Qabs (1 # 2)) with (1 # 2).
  assert (B : 1 <= Qabs (inject_Z (Z.of_nat m - 2 * Z.of_nat k))). { change (Qabs (inject_Z (Z.of_nat m - 2 * Z.of_nat k))) with (inject_Z (Z.abs (Z.of_nat m - 2 * Z.of_nat k))). change 1 with (inject_Z 1). rewrite <- Zle_Qle. lia. }
  lra.
Qed.

Section Floor.
Variable rnd : random.
Hypothesis T : tame rnd.
Theorem error_floor o a v t ss w xs table g e d : reached rnd Mvp o -> in_scope Mvp a -> fine Mvp a -> known_types a -> (2 <= a_n a)%nat -> a_eta a == 1 ->
  (forall x, v = Some x -> (0 < points x)%nat /\ axes x = 1%nat /\ all_entries (on_grid (a_n a)) x) ->
  t_array t = Vec ss -> good_targets Plain t -> (0 < length ss)%nat -> (forall m, w = Some m -> proper m /\ length (g_rows m) = length ss) -> length xs = length ss ->
  let o' := snd (icalibrate rnd Mvp o a) in
  iapply rnd Mvp o' w v = Ok (Some (Vec xs)) -> ierror rnd Mvp o' t w (Some (Vec xs)) (a_n a) = Ok table -> (g < g_width (groups_for w (length ss)))%nat -> nth 0 (nth g table []) None = Some e ->
  let who := members_of g (groups_for w (length ss)) in
  0 <= d -> (forall k : nat, d <= Qabs (a_coverage a * n_where who - inject_Z (Z.of_nat k))) -> d * d <= e * (n_where who * n_where who).
Proof.
  intros RO S F K N ET VP E G LS PW LX o' H1 H2 HG HE who D HD.
  destruct (coverage_of_sets rnd T o a v t ss w xs (map (fun s => [s]) ss) (repeat 0%nat (length ss)) table g e RO S F K N ET VP E G LS PW (singletons ss)) as (sets & inside & _ & _ & X);
    [rewrite map_length; congruence|rewrite repeat_length; congruence|exact H1|exact H2|exact HG|exact HE|].
  cbn zeta in X. fold who in X. eapply Qle_trans; [|exact X]. apply square_le; [exact D|]. apply HD.
Qed.
Theorem half_floor o a v t ss w xs table g e : reached rnd Mvp o -> in_scope Mvp a -> fine Mvp a -> known_types a -> (2 <= a_n a)%nat -> a_eta a == 1 ->
  (forall x, v = Some x -> (0 < points x)%nat /\ axes x = 1%nat /\ all_entries (on_grid (a_n a)) x) ->
  t_array t = Vec ss -> good_targets Plain t -> (0 < length ss)%nat -> (forall m, w = Some m -> proper m /\ length (g_rows m) = length ss) -> length xs = length ss ->
  let o' := snd (icalibrate rnd Mvp o a) in
  iapply rnd Mvp o' w v = Ok (Some (Vec xs)) -> ierror rnd Mvp o' t w (Some (Vec xs)) (a_n a) = Ok table -> (g < g_width (groups_for w (length ss)))%nat -> nth 0 (nth g table []) None = Some e ->
  let who := members_of g (groups_for w (length ss)) in
  a_coverage a == 1 # 2 -> Nat.odd (length (filter (fun b => b) who)) = true -> 1 # 4 <= e * (n_where who * n_where who).
Proof.
  intros RO S F K N ET VP E G LS PW LX o' H1 H2 HG HE who C O.
  assert (X : (1 # 2) * (1 # 2) <= e * (n_where who * n_where who)); [|exact X].
  apply (error_floor o a v t ss w xs table g e (1 # 2)); try assumption; [lra|].
  intros k. rewrite C. now apply half_away.
Qed.
End Floor.
