From Coq Require Import List Arith ZArith QArith Qabs Bool Lia Lqa.
From Verif Require Import Lib QuantModel ConfRegModel ConfClassModel MultiModel MultiSpec MultiSpec2 OneShotModel OneShotSpec OneShotProofs IterModel IterSpec IterProofs.
Import ListNotations.
Open Scope Q_scope.

Definition still : random := {| r_perm := fun n => seq 0 n; r_z1 := fun _ _ => 0; r_z2 := fun _ _ _ _ => 0 |}.
Definition reals (l : list Q) : typed := {| t_array := Vec l; t_int := false |}.
Definition labels (l : list Q) : typed := {| t_array := Vec l; t_int := true |}.
Definition cols (w : nat) (rows : list (list bool)) : membership := {| g_rows := rows; g_width := w; g_two_axes := true; g_bool := true |}.
Definition setting (t : typed) (g : option membership) (v : option array) (tg : option membership) (tv : option array) (n : nat) (types : list nat) (pt : ptype) (e c : Q) : args :=
  {| a_targets := t; a_groups := g; a_values := v; a_test_groups := tg; a_test_values := tv; a_atol := 1 # 10000; a_rtol := 1 # 1000000; a_min_prob := Some 0; a_n := n; a_rounds := 4;
     a_eta := e; a_split := 1 # 2; a_types := types; a_ptype := Some pt; a_coverage := c |}.
Definition tidy (r : result (option array)) : result (option array) :=
  match r with Ok (Some (Vec l)) => Ok (Some (Vec (map Qred l))) | Ok (Some (Mat rows)) => Ok (Some (Mat (map (map Qred) rows))) | r => r end.
Definition tidy_table (r : result (list (list (option Q)))) := match r with Ok t => Ok (map (map (option_map Qred)) t) | Err e => Err e end.
Definition halves (n : nat) : option array := Some (Vec (repeat (1 # 2) n)).
Definition two : membership := cols 2 [[true; false]; [false; true]; [true; false]; [false; true]].
Definition leaning : option array := Some (Mat (repeat [3 # 5; 2 # 5] 4)).
Definition a_plain := setting (reals [0; 1; 0; 1]) (Some two) (halves 4) None None 3 [0%nat] Additive 1 (1 # 2).
Definition a_types' := setting (reals [0; 1; 0; 1]) (Some two) (halves 4) None None 5 [7%nat] Additive 1 (1 # 2).
Definition a_long := setting (reals [0; 1; 0; 1]) (Some (cols 1 [[true]])) (halves 7) None None 3 [0%nat] Additive 1 (1 # 2).
Definition a_zero := setting (reals [0; 0; 0; 0]) (Some two) None (Some two) None 3 [0%nat] Additive 1 (1 # 2).
Definition a_mvp := setting (reals [1; 1; 1; 1]) (Some two) (halves 4) None None 3 [0%nat] Additive 1 (3 # 4).
Definition a_times := setting (reals [1; 1; 1; 1]) (Some two) (halves 4) None None 3 [0%nat] Multiplicative 1 (3 # 4).
Definition a_eta' := setting (reals [1; 1; 1; 1]) (Some two) (halves 4) None None 3 [0%nat] Additive 2 1.
Definition a_late := setting (reals [1; 1; 1; 1]) (Some two) (halves 4) (Some (cols 2 [[true; false]])) (Some (Vec [2])) 3 [0%nat] Additive 1 (3 # 4).
Definition a_top := setting (labels [0; 1; 0; 1]) (Some two) leaning None None 3 [0%nat] Additive 1 0.
Definition after (f : family) (o : object) (a : args) : object := snd (icalibrate still f o a).

Lemma still_tame : tame still.
Proof.
  repeat split; intros; cbn; try (unfold Qle; cbn; lia). exists O. split; [assumption|]. unfold Qeq. cbn. lia.
Qed.
Lemma units n : Forall in_unit (repeat (1 # 2) n).
Proof. apply Forall_forall. intros x H. apply repeat_spec in H. subst. unfold in_unit. lra. Qed.
Lemma setting_fine f t g v tg tv n types pt e c : (f = Mvp -> in_unit c) -> 0 < e <= 1 -> good_targets (kind_of f) t -> (forall w, g = Some w \/ tg = Some w -> proper w) ->
  (tv <> None -> v <> None) -> (tg <> None -> g <> None) -> (v <> None -> tg <> None -> tv <> None) -> (g <> None -> tv <> None -> tg <> None) ->
  (forall x, v = Some x -> values_fine f x) -> (forall x, tv = Some x -> f <> Mvp -> all_entries in_unit x /\ (f <> Mc Plain -> axes x = needed (kind_of f))) -> fine f (setting t g v tg tv n types pt e c).
Proof.
  intros A B C D E F G H I J. split; [exact A|]. split; [|split; [exact C|split; [exact D|split; [exact I|exact J]]]]. split; [cbn; lia|]. split; [exact B|]. split; [cbn; split; unfold Qle, Qlt; cbn; lia|].
  split; [intros p [= <-]; split; unfold Qle, Qlt; cbn; lia|]. split; [discriminate|]. repeat split; assumption.
Qed.
Lemma plain_fine : in_scope (Mc Plain) a_plain /\ fine (Mc Plain) a_plain /\ known_types a_plain /\ right_width (Mc Plain) a_plain /\ aligned (Mc Plain) a_plain.
Proof.
  split; [|split; [|split; [|split]]].
  - split; [cbn; lia|]. split; [intros g [= <-]; cbn; lia|discriminate].
  - apply setting_fine; try discriminate; try (intros; assumption); try (intros; congruence); [split; unfold Qle, Qlt; cbn; lia| | |].
    + eexists. split; [reflexivity|]. repeat constructor; unfold Qle; cbn; lia.
    + intros w [[= <-]|[=]]. split; reflexivity.
    + intros x [= <-]. split; [reflexivity|]. exact (units 4).
  - intros t [<-|[]]. lia.
  - intros m rows [=].
  - split; [intros g [= <-]; reflexivity|]. intros v [= <-]. split; [reflexivity|exact I].
Qed.
Lemma mvp_fine a : In a [a_mvp; a_times; a_late] -> in_scope Mvp a /\ fine Mvp a /\ known_types a.
Proof.
  intros H. assert (G : good_targets Plain (reals [1; 1; 1; 1])) by (eexists; split; [reflexivity|]; repeat constructor; unfold Qle; cbn; lia).
  assert (P : proper two) by (split; reflexivity). assert (P2 : proper (cols 2 [[true; false]])) by (split; reflexivity). assert (U : in_unit (3 # 4)) by (split; unfold Qle; cbn; lia).
  assert (E1 : 0 < 1 <= 1) by lra. assert (V : values_fine Mvp (Vec (repeat (1 # 2) 4))) by (split; [reflexivity|exact (units 4)]).
  destruct H as [<-|[<-|[<-|[]]]]; (split; [|split; [|intros t [<-|[]]; lia]]).
  - split; [cbn; lia|]. split; [intros g [= <-]; cbn; lia|]. intros _ v [[= <-]|[=]]. reflexivity.
  - apply setting_fine; try discriminate; try (intros; assumption); try (intros; congruence); [intros w [[= <-]|[=]]; exact P|now intros x [= <-]].
  - split; [cbn; lia|]. split; [intros g [= <-]; cbn; lia|]. intros _ v [[= <-]|[=]]. reflexivity.
  - apply setting_fine; try discriminate; try (intros; assumption); try (intros; congruence); [intros w [[= <-]|[=]]; exact P|now intros x [= <-]].
  - split; [cbn; lia|]. split; [intros g [= <-]; cbn; lia|]. intros _ v [[= <-]|[= <-]]; reflexivity.
  - apply setting_fine; try discriminate; try (intros; assumption); try (intros; congruence); [intros w [[= <-]|[= <-]]; [exact P|exact P2]|now intros x [= <-]].
Qed.
Lemma reached_plain : reached still (Mc Plain) (after (Mc Plain) blank a_plain). Proof. apply again; [constructor|cbn; lia]. Qed.
Lemma reached_mvp : reached still Mvp (after Mvp blank a_mvp). Proof. apply again; [constructor|cbn; lia]. Qed.

Theorem types_refuted : exists rnd o a g x y z, tame rnd /\ reached rnd (Mc Plain) o /\ fst (icalibrate rnd (Mc Plain) o a) = Err ValueError /\
  iapply rnd (Mc Plain) o (Some g) (Some (Vec [x])) = Ok (Some (Vec [y])) /\ iapply rnd (Mc Plain) (snd (icalibrate rnd (Mc Plain) o a)) (Some g) (Some (Vec [x])) = Ok (Some (Vec [z])) /\ ~ y == z.
Proof.
  exists still, (after (Mc Plain) blank a_plain), a_types', (cols 2 [[true; false]]), (3 # 8). do 2 eexists. split; [exact still_tame|]. split; [exact reached_plain|].
  split; [vm_compute; reflexivity|]. split; [vm_compute; reflexivity|]. split; [vm_compute; reflexivity|]. vm_compute. discriminate.
Qed.
Theorem lost_refuted : exists rnd o a, tame rnd /\ reached rnd Mvp o /\ i_patches o <> [] /\ in_scope Mvp a /\ fine Mvp a /\ known_types a /\
  fst (icalibrate rnd Mvp o a) = Err NotImplementedErr /\ i_patches (snd (icalibrate rnd Mvp o a)) = [].
Proof.
  exists still, (after Mvp blank a_mvp), a_times. split; [exact still_tame|]. split; [exact reached_mvp|]. split; [vm_compute; discriminate|].
  destruct (mvp_fine a_times) as (A & B & C); [right; now left|]. split; [exact A|]. split; [exact B|]. split; [exact C|]. split; vm_compute; reflexivity.
Qed.
Theorem lengths_refuted : exists rnd a st g v, tame rnd /\ a_groups a = Some g /\ a_values a = Some v /\ length (g_rows g) <> points (t_array (a_targets a)) /\ points v <> points (t_array (a_targets a)) /\
  fst (icalibrate rnd (Mc Plain) blank a) = Ok (st, None).
Proof.
  exists still, a_long. do 3 eexists. split; [exact still_tame|]. split; [reflexivity|]. split; [reflexivity|]. split; [discriminate|]. split; [discriminate|]. vm_compute. reflexivity.
Qed.
Theorem narrow_refuted : exists rnd o g x y, tame rnd /\ reached rnd (Mc Plain) o /\ (forall k p, In (k, p) (i_patches o) -> (g_width g <= k_g k)%nat) /\
  iapply rnd (Mc Plain) o (Some g) (Some (Vec [x])) = Ok (Some (Vec [y])) /\ ~ x == y.
Proof.
  exists still, (after (Mc Plain) blank (setting (reals [1 # 2; 1; 1 # 2; 1]) (Some (cols 3 [[true; false; false]; [false; false; true]; [false; true; false]; [false; false; true]])) (halves 4) None None 3 [0%nat; 1%nat] Additive (1 # 2) 0)).
  exists (cols 1 [[true]]), (1 # 2). eexists. split; [exact still_tame|]. split; [apply again; [constructor|cbn; lia]|]. split; [|split; [vm_compute; reflexivity|vm_compute; discriminate]].
  intros k p H. vm_compute in H. repeat (destruct H as [[= <- _]|H]; [cbn; lia|]). destruct H.
Qed.
Theorem nothing_refuted : exists rnd a st g, tame rnd /\ a_test_groups a = Some g /\ fst (icalibrate rnd (Mc Plain) blank a) = Ok (st, Some None).
Proof. exists still, a_zero. do 2 eexists. split; [exact still_tame|]. split; [reflexivity|]. vm_compute. reflexivity. Qed.
Theorem coverage_refuted : exists rnd o a t v n, tame rnd /\ reached rnd Mvp o /\ fst (icalibrate rnd Mvp o a) = Err ValueError /\
  ierror rnd Mvp o t None (Some v) n <> ierror rnd Mvp (snd (icalibrate rnd Mvp o a)) t None (Some v) n.
Proof.
  exists still, (after Mvp blank a_mvp), a_eta', (reals [0]), (Vec [1]), 3%nat. split; [exact still_tame|]. split; [exact reached_mvp|]. split; [vm_compute; reflexivity|]. vm_compute. discriminate.
Qed.
Theorem late_refuted : exists rnd a, tame rnd /\ in_scope Mvp a /\ fine Mvp a /\ known_types a /\ fst (icalibrate rnd Mvp blank a) = Err ValueError /\ i_patches (snd (icalibrate rnd Mvp blank a)) <> [].
Proof.
  exists still, a_late. split; [exact still_tame|]. destruct (mvp_fine a_late) as (A & B & C); [right; right; now left|]. split; [exact A|]. split; [exact B|]. split; [exact C|]. split; [vm_compute; reflexivity|]. vm_compute. discriminate.
Qed.
Lemma case_plain : tidy (iapply still (Mc Plain) (after (Mc Plain) blank a_plain) (Some two) (halves 4)) = Ok (Some (Vec [0; 1 # 2; 0; 1 # 2])).
Proof. vm_compute. reflexivity. Qed.
Lemma case_mvp : tidy (iapply still Mvp (after Mvp blank a_mvp) (Some two) (halves 4)) = Ok (Some (Vec [1; 1 # 2; 1; 1 # 2])).
Proof. vm_compute. reflexivity. Qed.
Lemma case_top : tidy (iapply still (Mc (TopLabel 2)) (after (Mc (TopLabel 2)) blank a_top) (Some (cols 2 [[true; false]])) (Some (Mat [[3 # 5; 2 # 5]; [2 # 5; 3 # 5]]))) = Ok (Some (Mat [[1; 2 # 5]; [2 # 5; 3 # 5]])).
Proof. vm_compute. reflexivity. Qed.
Lemma case_lengths : iapply still (Mc Plain) (after (Mc Plain) blank a_plain) (Some two) (halves 3) = Err TypeError /\ iapply still (Mc Plain) (after (Mc Plain) blank a_plain) (Some two) (halves 1) = Err IndexError /\
  iapply still (Mc Plain) (after (Mc Plain) blank a_plain) None None = Err ValueError.
Proof. split; [|split]; vm_compute; reflexivity. Qed.
Lemma case_start : tidy (Ok (Some (init_values still (Mc (TopLabel 2)) None 2))) = Ok (Some (Mat [[1 # 2; 1 # 2]; [1 # 2; 1 # 2]])) /\ tidy (Ok (Some (init_values still (Mc Binary) None 2))) = Ok (Some (Vec [1 # 2; 1 # 2])).
Proof. split; vm_compute; reflexivity. Qed.
Lemma case_error : tidy_table (ierror still Mvp (after Mvp blank a_mvp) (reals [1; 1; 0; 1]) (Some two) (halves 4) 3) = Ok [[Some (1 # 16)]; [Some (9 # 16)]] /\
  tidy_table (ierror still (Mc (TopLabel 2)) blank (labels [0; 1; 0; 0]) None leaning 3) = Ok [[Some (9 # 400); Some 0]] /\
  ierror still Mvp (after Mvp blank a_mvp) (reals [1; 1; 0; 1]) (Some two) None 3 = Err TypeError.
Proof. split; [|split]; vm_compute; reflexivity. Qed.
Definition a_rare : args :=
  let rows := [[true; false]; [false; true]; [false; true]; [false; true]] in
  {| a_targets := reals [1; 1; 1; 1; 1; 1; 1; 1]; a_groups := Some (cols 2 (rows ++ rows)); a_values := Some (Vec [0; 1; 1; 1; 0; 1; 1; 1]); a_test_groups := None; a_test_values := None; a_atol := 1 # 10000; a_rtol := 1 # 1000000;
     a_min_prob := Some (1 # 2); a_n := 2; a_rounds := 4; a_eta := 1 # 2; a_split := 1 # 2; a_types := [0%nat]; a_ptype := Some Additive; a_coverage := 0 |}.
Lemma rare_fine : in_scope (Mc Plain) a_rare /\ fine (Mc Plain) a_rare /\ known_types a_rare /\ right_width (Mc Plain) a_rare /\ aligned (Mc Plain) a_rare.
Proof.
  split; [|split; [|split; [|split]]].
  - split; [cbn; lia|]. split; [intros g [= <-]; cbn; lia|discriminate].
  - split; [discriminate|]. split; [|split; [|split; [|split]]].
    + split; [cbn; lia|]. split; [cbn; split; unfold Qle, Qlt; cbn; lia|]. split; [cbn; split; unfold Qle, Qlt; cbn; lia|]. split; [intros p [= <-]; split; unfold Qle, Qlt; cbn; lia|]. split; [discriminate|]. repeat split; cbn; intros; congruence.
    + eexists. split; [reflexivity|]. repeat constructor; unfold Qle; cbn; lia.
    + intros w [[= <-]|[=]]. split; reflexivity.
    + intros x [= <-]. split; [reflexivity|]. cbn. repeat constructor; unfold Qle; cbn; lia.
    + intros x [=].
  - intros t [<-|[]]. lia.
  - intros m rows [=].
  - split; [intros g [= <-]; reflexivity|]. intros v [= <-]. split; [reflexivity|exact I].
Qed.
Theorem rare_refuted : exists rnd a l st x k p mask, tame rnd /\ in_scope (Mc Plain) a /\ fine (Mc Plain) a /\ known_types a /\ right_width (Mc Plain) a /\ aligned (Mc Plain) a /\
  t_array (a_targets a) = Vec l /\ a_values a = Some x /\
  fst (icalibrate rnd (Mc Plain) blank a) = Ok (st, None) /\ nth_error (i_patches (snd (icalibrate rnd (Mc Plain) blank a))) 0 = Some (k, p) /\
  let idx := fitted_on rnd a (length l) in
  picks (a_n a) k (g_rows (groups_at idx (groups_for (a_groups a) (length l)))) (array_at idx x) mask /\
  n_where mask / inject_Z (Z.of_nat (length idx)) < least (Mc Plain) a /\ ~ p == 0.
Proof.
  exists still, a_rare. do 5 eexists. exists [true; false; false; false]. split; [exact still_tame|]. destruct rare_fine as (A & B & C & D & E). do 5 (split; [assumption|]). do 2 (split; [reflexivity|]).
  split; [vm_compute; reflexivity|]. split; [vm_compute; reflexivity|]. split; [|split; [vm_compute; reflexivity|vm_compute; discriminate]].
  split; [reflexivity|]. intros i row H. destruct i as [|[|[|[|[|i]]]]]; cbn in H; try discriminate H; injection H as <-; cbn; (split; [intros X|intros (z & X & Y & Z)]); try discriminate; try reflexivity.
  exists 0. split; [reflexivity|]. split; [reflexivity|]. vm_compute. reflexivity.
Qed.
Lemma case_chosen : let o := after (Mc Plain) blank a_rare in
  map (fun p => (k_g (fst p), Qred (k_v (fst p)), Qred (snd p))) (firstn 2 (i_patches o)) = [(0%nat, 0, 1); (0%nat, 0, 0)] /\ fitted_on still a_rare 8 = [0; 1; 2; 3]%nat /\ least (Mc Plain) a_rare = 1 # 2.
Proof. split; [|split]; vm_compute; reflexivity. Qed.
