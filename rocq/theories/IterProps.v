(** C164: iterative multivalid methods as objects *)
From Coq Require Import List Arith ZArith QArith Qabs Bool Permutation.
From Verif Require Import Lib QuantModel ConfRegModel ConfClassModel MultiModel MultiSpec MultiSpec2 MultiSpec3 OneShotModel OneShotSpec IterModel IterSpec IterProofs2 IterProofs3 IterProofs5 IterProofs6 IterProofs7 IterProofs8 IterProofs9 IterCases.
From Verif Require Import Lit.
Import ListNotations.
Open Scope Q_scope.

Theorem C164_checks : forall rnd, tame rnd -> forall f o a, in_scope f a ->
  let r := icalibrate rnd f o a in
  (~ fine f a -> fst r = Err ValueError /\ alike rnd f (snd r) o) /\
  (fine f a -> ~ known_types a -> fst r = Err ValueError /\ i_patches (snd r) = i_patches o /\ i_n (snd r) = Some (a_n a) /\ i_eta (snd r) = i_eta o /\ i_ptype (snd r) = i_ptype o) /\
  (fine f a -> known_types a -> ~ right_width f a ->
     fst r = Err TypeError /\ i_patches (snd r) = i_patches o /\ i_n (snd r) = Some (a_n a) /\ i_eta (snd r) = Some (a_eta a) /\ i_ptype (snd r) = a_ptype a) /\
  (fine f a -> known_types a -> right_width f a ->
     i_n (snd r) = Some (a_n a) /\ i_eta (snd r) = Some (a_eta a) /\ i_ptype (snd r) = a_ptype a /\ (f = Mvp -> i_coverage (snd r) = Some (a_coverage a)) /\
     forall o', fst (icalibrate rnd f o' a) = fst r /\ alike rnd f (snd (icalibrate rnd f o' a)) (snd r)).
Proof. exact (@checks). Qed.
Print Assumptions C164_checks.
Theorem C164_succeeds : forall rnd, tame rnd -> forall f o a, in_scope f a -> fine f a -> known_types a -> right_width f a -> a_ptype a = Some Additive -> 0 <= a_atol a ->
  exists st, fst (icalibrate rnd f o (without_test a)) = Ok (st, None).
Proof. exact (@succeeds). Qed.
Print Assumptions C164_succeeds.
Theorem C164_test : forall rnd, tame rnd -> forall f o a, in_scope f a -> fine f a -> known_types a -> right_width f a ->
  let r := icalibrate rnd f o a in let r0 := icalibrate rnd f o (without_test a) in
  snd r = snd r0 /\
  match fst r0 with
  | Err e => fst r = Err e
  | Ok (st, y) => y = None /\
      fst r = match a_test_groups a, a_test_values a with
              | None, None => Ok (st, None)
              | g, v => match iapply rnd f (snd r) g v with Ok y => Ok (st, Some y) | Err e => Err e end
              end
  end.
Proof. exact (@test_data). Qed.
Print Assumptions C164_test.
Theorem C164_recorded : forall rnd, tame rnd -> forall f o a st y, in_scope f a -> fine f a -> known_types a -> right_width f a -> fst (icalibrate rnd f o a) = Ok (st, y) ->
  let ps := i_patches (snd (icalibrate rnd f o a)) in
  st_n_rounds st = length ps /\ (Z.of_nat (length ps) <= a_rounds a)%Z /\
  forall k p, In (k, p) ps -> In (k_tau k) (a_types a) /\ (k_g k < columns a)%nat /\ on_grid (a_n a) (k_v k) /\ (k_c k < width (kind_of f))%nat.
Proof. exact (@recorded). Qed.
Print Assumptions C164_recorded.
Theorem C164_improves : forall rnd, tame rnd -> forall f o a l ss st y, in_scope f a -> fine f a -> known_types a -> right_width f a -> aligned f a -> t_array (a_targets a) = Vec l -> scores_are (kind_of f) l ss ->
  Permutation (r_perm rnd (length l)) (seq 0 (length l)) -> fst (icalibrate rnd f o a) = Ok (st, y) ->
  let vs := init_values rnd f (a_values a) (length l) in
  exists out, iapply rnd f (snd (icalibrate rnd f o a)) (a_groups a) (Some vs) = Ok (Some out) /\ axes out = axes vs /\ points out = points vs /\
    total_loss f a l ss out <= total_loss f a l ss vs.
Proof. exact (@improves). Qed.
Print Assumptions C164_improves.
Theorem C164_multiplicative : forall rnd, tame rnd -> forall o a, in_scope Mvp a -> fine Mvp a -> known_types a -> a_ptype a = Some Multiplicative ->
  i_patches (snd (icalibrate rnd Mvp o a)) = [] /\
  (fst (icalibrate rnd Mvp o a) = Err NotImplementedErr \/ exists st y, fst (icalibrate rnd Mvp o a) = Ok (st, y) /\ st_n_rounds st = O /\ (forall x, y = Some x -> x = a_test_values a)).
Proof. exact (@multiplicative_mvp). Qed.
Print Assumptions C164_multiplicative.
Theorem C164_apply : forall rnd, tame rnd -> forall f o g v, reached rnd f o -> (forall m, f = Mc (TopLabel m) -> (0 < m)%nat) -> (forall w, g = Some w -> (0 < length (g_rows w))%nat) ->
  (forall x, v = Some x -> (0 < points x)%nat /\ full_rows x /\ (f = Mvp -> axes x = 1%nat)) ->
  let r := iapply rnd f o g v in
  (g = None -> v = None -> r = Err ValueError) /\
  (i_patches o = [] -> ~ (g = None /\ v = None) -> r = Ok v) /\
  (i_patches o <> [] -> (forall x, v = Some x -> ~ values_fine f x -> r = Err ValueError) /\ (forall w, g = Some w -> ~ proper w -> r = Err ValueError)) /\
  (i_patches o <> [] -> ~ (g = None /\ v = None) -> (forall x, v = Some x -> values_fine f x) -> (forall w, g = Some w -> proper w) ->
     let x := init_values rnd f v (match g with Some w => length (g_rows w) | None => 0%nat end) in
     let w := groups_for g (points x) in
     (length (g_rows w) <> points x -> length (g_rows w) <> 1%nat -> r = Err (if (points x =? 1)%nat then IndexError else TypeError)) /\
     (length (g_rows w) = points x \/ length (g_rows w) = 1%nat ->
        exists out n pt e, r = Ok (Some out) /\ i_n o = Some n /\ i_ptype o = Some pt /\ i_eta o = Some e /\ axes out = axes x /\ points out = points x /\ all_entries in_unit out /\
        match x, out with
        | Vec xs, Vec ys => forall i a, nth_error xs i = Some a -> exists b, nth_error ys i = Some b /\
            moved n (g_width w) pt e (nth (Nat.min i (length (g_rows w) - 1)) (g_rows w) []) (i_patches o) a b
        | Mat xs, Mat ys => forall i a, nth_error xs i = Some a -> exists b, nth_error ys i = Some b /\ length b = length a /\
            moved_top n (g_width w) pt e (nth (Nat.min i (length (g_rows w) - 1)) (g_rows w) []) (i_patches o) a b
        | _, _ => False
        end)).
Proof. exact (@apply_checks). Qed.
Print Assumptions C164_apply.
Example C164_case_hypotheses : full_rows (Mat (repeat [3 # 5; 2 # 5] 4)) /\ reached still (Mc Plain) (after (Mc Plain) blank a_plain) /\ i_patches (after (Mc Plain) blank a_plain) <> [] /\
  values_fine (Mc Plain) (Vec [1 # 2; 1; 0; 1 # 4]) /\ proper two.
Proof.
  split; [repeat constructor; discriminate|]. split; [apply again; [apply new|cbn; lia]|]. split; [vm_compute; discriminate|]. split; [|split; reflexivity].
  split; [reflexivity|]. repeat constructor; vm_compute; discriminate.
Qed.
Theorem C164_pointwise : forall rnd f o g v out, reached rnd f o -> (forall m, f = Mc (TopLabel m) -> (0 < m)%nat) -> iapply rnd f o (Some g) (Some v) = Ok (Some out) -> length (g_rows g) = points v -> (0 < points v)%nat -> full_rows v -> (f = Mvp -> axes v = 1%nat) ->
  let only i := {| g_rows := [nth i (g_rows g) []]; g_width := g_width g; g_two_axes := g_two_axes g; g_bool := g_bool g |} in
  match v, out with
  | Vec xs, Vec ys => forall i, (i < length xs)%nat -> iapply rnd f o (Some (only i)) (Some (Vec [nth i xs 0])) = Ok (Some (Vec [nth i ys 0]))
  | Mat xs, Mat ys => forall i, (i < length xs)%nat -> iapply rnd f o (Some (only i)) (Some (Mat [nth i xs []])) = Ok (Some (Mat [nth i ys []]))
  | _, _ => False
  end.
Proof. exact (@pointwise). Qed.
Print Assumptions C164_pointwise.
Theorem C164_initial : forall rnd, tame rnd -> forall f size, (forall m, f = Mc (TopLabel m) -> (0 < m)%nat) ->
  let x := init_values rnd f None size in points x = size /\ axes x = needed (kind_of f) /\ all_entries in_unit x /\
  match f, x with
  | Mc Binary, Vec xs => forall i, (i < size)%nat -> nth i xs 0 == (1 # 2) + r_z1 rnd size i / 100
  | Mc (TopLabel m), Mat rows => forall i, (i < size)%nat -> length (nth i rows []) = m /\ total_of (nth i rows []) == 1 /\
      exists s, 0 < s /\ forall j, (j < m)%nat -> folded (Qabs (1 / inject_Z (Z.of_nat m) + r_z2 rnd size m i j / 100)) (s * nth j (nth i rows []) 0)
  | Mc Plain, Vec xs | Mvp, Vec xs => forall i, (i < size)%nat -> nth i xs 1 == 0
  | _, _ => False
  end.
Proof. exact (@initial). Qed.
Print Assumptions C164_initial.
Theorem C164_error : forall rnd, tame rnd -> forall f o t l w v n, good_targets (kind_of f) t -> t_array t = Vec l -> (0 < length l)%nat -> (0 < n)%nat -> (forall g, w = Some g -> proper g /\ length (g_rows g) = length l) ->
  (forall x, v = Some x -> values_fine f x /\ points x = length l /\ full_rows x) ->
  let r := ierror rnd f o t w v n in
  let x := init_values rnd f v (length l) in
  let gs := groups_for w (length l) in
  (f = Mvp -> v = None \/ i_coverage o = None -> r = Err TypeError) /\
  forall coverage, (f = Mvp -> v <> None /\ i_coverage o = Some coverage) ->
  exists table, r = Ok table /\ length table = g_width gs /\ Forall (fun row => length row = width (kind_of f)) table /\
  forall g c ss masks, (g < g_width gs)%nat -> (c < width (kind_of f))%nat -> Forall2 (score_is (kind_of f) c) l ss -> (forall j, (j < n)%nat -> marks n g c (g_rows gs) (centre n j) x (masks j)) ->
    let size := n_where (map (fun row => nth g row false) (g_rows gs)) in
    let entry := nth c (nth g table []) None in
    (size == 0 -> entry = None) /\
    (~ size == 0 -> exists e, entry = Some e /\ 0 <= e /\ e * size == total_of (map (fun j => part_error f coverage ss (dimension c x) (masks j)) (seq 0 n))).
Proof. exact (@error_meaning). Qed.
Print Assumptions C164_error.
Example C164_case_error_hypotheses : good_targets (kind_of (Mc Plain)) (reals [1; 1; 0; 1]) /\ Forall2 (score_is Plain 0) [1; 1; 0; 1] [1; 1; 0; 1] /\ scores_are Plain [1; 0] [[1]; [0]] /\
  folded (3 # 4) (3 # 4) /\ folded (5 # 4) (3 # 4) /\ marks 3 1 0 (g_rows two) (1 # 2) (Vec [1 # 2; 1 # 2; 0; 1]) [false; true; false; false].
Proof.
  split; [eexists; split; [reflexivity|]; repeat constructor; vm_compute; discriminate|]. split; [repeat constructor|].
  split; [repeat constructor; intros [|c] H; try reflexivity; cbn in H; lia|]. split; [split; [reflexivity|intros H; vm_compute in H; discriminate H]|].
  split; [split; [intros H; exfalso; apply H; reflexivity|reflexivity]|].
  split; [reflexivity|]. intros i row G. destruct i as [|[|[|[|i]]]]; cbn in G; try (injection G as <-).
  - split; [discriminate|intros [H _]; discriminate H].
  - split; [intros _; split; [reflexivity|]; eexists; split; reflexivity|reflexivity].
  - split; [discriminate|intros [H _]; discriminate H].
  - split; [discriminate|]. intros [_ [a [H1 H2]]]. injection H1 as <-. vm_compute in H2. discriminate H2.
  - destruct i; discriminate G.
Qed.
Theorem C164_chosen : forall rnd, tame rnd -> forall f o a l st y i k p, in_scope f a -> fine f a -> known_types a -> right_width f a -> aligned f a -> (0 < a_n a)%nat -> t_array (a_targets a) = Vec l ->
  Permutation (r_perm rnd (length l)) (seq 0 (length l)) -> fst (icalibrate rnd f o a) = Ok (st, y) ->
  let o' := snd (icalibrate rnd f o a) in nth_error (i_patches o') i = Some (k, p) ->
  let idx := fitted_on rnd a (length l) in
  let g := groups_at idx (groups_for (a_groups a) (length l)) in
  let share mask := n_where mask / inject_Z (Z.of_nat (length idx)) in
  exists x, iapply rnd f (with_patches (firstn i (i_patches o')) o') (Some g) (Some (array_at idx (init_values rnd f (a_values a) (length l)))) = Ok (Some x) /\
    examined f a k /\
    forall ss mask, Forall2 (score_is (kind_of f) (k_c k)) (points_at 0 idx l) ss -> picks (a_n a) k (g_rows g) x mask ->
      patch_is f a ss (dimension (k_c k) x) mask p /\
      (forall k' ss' mask', examined f a k' -> Forall2 (score_is (kind_of f) (k_c k')) (points_at 0 idx l) ss' -> picks (a_n a) k' (g_rows g) x mask' -> least f a <= share mask' ->
         part_error f (a_coverage a) ss' (dimension (k_c k') x) mask' <= part_error f (a_coverage a) ss (dimension (k_c k) x) mask) /\
      (least f a <= share mask \/
       forall k' ss' mask', examined f a k' -> Forall2 (score_is (kind_of f) (k_c k')) (points_at 0 idx l) ss' -> picks (a_n a) k' (g_rows g) x mask' -> least f a <= share mask' ->
         part_error f (a_coverage a) ss' (dimension (k_c k') x) mask' == 0).
Proof. exact (@chosen). Qed.
Print Assumptions C164_chosen.
Theorem C164_bucket_types : forall rnd, tame rnd -> forall f o a, in_scope f a -> fine f a -> known_types a -> right_width f a -> i_types (snd (icalibrate rnd f o a)) = Some (a_types a).
Proof. exact (@kept_types). Qed.
Print Assumptions C164_bucket_types.
Theorem C164_types_refuted : exists rnd o a g x y z, tame rnd /\ reached rnd (Mc Plain) o /\ fst (icalibrate rnd (Mc Plain) o a) = Err ValueError /\
  iapply rnd (Mc Plain) o (Some g) (Some (Vec [x])) = Ok (Some (Vec [y])) /\ iapply rnd (Mc Plain) (snd (icalibrate rnd (Mc Plain) o a)) (Some g) (Some (Vec [x])) = Ok (Some (Vec [z])) /\ ~ y == z.
Proof. exact (@types_refuted). Qed.
Print Assumptions C164_types_refuted.
Theorem C164_lost_refuted : exists rnd o a, tame rnd /\ reached rnd Mvp o /\ i_patches o <> [] /\ in_scope Mvp a /\ fine Mvp a /\ known_types a /\
  fst (icalibrate rnd Mvp o a) = Err NotImplementedErr /\ i_patches (snd (icalibrate rnd Mvp o a)) = [].
Proof. exact (@lost_refuted). Qed.
Print Assumptions C164_lost_refuted.
Theorem C164_lengths_refuted : exists rnd a st g v, tame rnd /\ a_groups a = Some g /\ a_values a = Some v /\ length (g_rows g) <> points (t_array (a_targets a)) /\ points v <> points (t_array (a_targets a)) /\
  fst (icalibrate rnd (Mc Plain) blank a) = Ok (st, None).
Proof. exact (@lengths_refuted). Qed.
Print Assumptions C164_lengths_refuted.
Theorem C164_narrow_refuted : exists rnd o g x y, tame rnd /\ reached rnd (Mc Plain) o /\ (forall k p, In (k, p) (i_patches o) -> (g_width g <= k_g k)%nat) /\
  iapply rnd (Mc Plain) o (Some g) (Some (Vec [x])) = Ok (Some (Vec [y])) /\ ~ x == y.
Proof. exact (@narrow_refuted). Qed.
Print Assumptions C164_narrow_refuted.
Theorem C164_nothing_refuted : exists rnd a st g, tame rnd /\ a_test_groups a = Some g /\ fst (icalibrate rnd (Mc Plain) blank a) = Ok (st, Some None).
Proof. exact (@nothing_refuted). Qed.
Print Assumptions C164_nothing_refuted.
Theorem C164_coverage_refuted : exists rnd o a t v n, tame rnd /\ reached rnd Mvp o /\ fst (icalibrate rnd Mvp o a) = Err ValueError /\
  ierror rnd Mvp o t None (Some v) n <> ierror rnd Mvp (snd (icalibrate rnd Mvp o a)) t None (Some v) n.
Proof. exact (@coverage_refuted). Qed.
Print Assumptions C164_coverage_refuted.
Theorem C164_late_refuted : exists rnd a, tame rnd /\ in_scope Mvp a /\ fine Mvp a /\ known_types a /\ fst (icalibrate rnd Mvp blank a) = Err ValueError /\ i_patches (snd (icalibrate rnd Mvp blank a)) <> [].
Proof. exact (@late_refuted). Qed.
Print Assumptions C164_late_refuted.
Theorem C164_rare_refuted : exists rnd a l st x k p mask, tame rnd /\ in_scope (Mc Plain) a /\ fine (Mc Plain) a /\ known_types a /\ right_width (Mc Plain) a /\ aligned (Mc Plain) a /\
  t_array (a_targets a) = Vec l /\ a_values a = Some x /\
  fst (icalibrate rnd (Mc Plain) blank a) = Ok (st, None) /\ nth_error (i_patches (snd (icalibrate rnd (Mc Plain) blank a))) 0 = Some (k, p) /\
  let idx := fitted_on rnd a (length l) in
  picks (a_n a) k (g_rows (groups_at idx (groups_for (a_groups a) (length l)))) (array_at idx x) mask /\
  n_where mask / inject_Z (Z.of_nat (length idx)) < least (Mc Plain) a /\ ~ p == 0.
Proof. exact rare_refuted. Qed.
Print Assumptions C164_rare_refuted.
Example C164_case_plain : tidy (iapply still (Mc Plain) (after (Mc Plain) blank a_plain) (Some two) (halves 4)) = Ok (Some (Vec [0; 1 # 2; 0; 1 # 2])).
Proof. exact case_plain. Qed.
Example C164_case_plain_fine : in_scope (Mc Plain) a_plain /\ fine (Mc Plain) a_plain /\ known_types a_plain /\ right_width (Mc Plain) a_plain /\ aligned (Mc Plain) a_plain.
Proof. exact plain_fine. Qed.
Example C164_case_tame : tame still.
Proof. exact still_tame. Qed.
Example C164_case_mvp : tidy (iapply still Mvp (after Mvp blank a_mvp) (Some two) (halves 4)) = Ok (Some (Vec [1; 1 # 2; 1; 1 # 2])).
Proof. exact case_mvp. Qed.
Example C164_case_top : tidy (iapply still (Mc (TopLabel 2)) (after (Mc (TopLabel 2)) blank a_top) (Some (cols 2 [[true; false]])) (Some (Mat [[3 # 5; 2 # 5]; [2 # 5; 3 # 5]]))) = Ok (Some (Mat [[1; 2 # 5]; [2 # 5; 3 # 5]])).
Proof. exact case_top. Qed.
Example C164_case_lengths : iapply still (Mc Plain) (after (Mc Plain) blank a_plain) (Some two) (halves 3) = Err TypeError /\ iapply still (Mc Plain) (after (Mc Plain) blank a_plain) (Some two) (halves 1) = Err IndexError /\
  iapply still (Mc Plain) (after (Mc Plain) blank a_plain) None None = Err ValueError.
Proof. exact case_lengths. Qed.
Example C164_case_start : tidy (Ok (Some (init_values still (Mc (TopLabel 2)) None 2))) = Ok (Some (Mat [[1 # 2; 1 # 2]; [1 # 2; 1 # 2]])) /\ tidy (Ok (Some (init_values still (Mc Binary) None 2))) = Ok (Some (Vec [1 # 2; 1 # 2])).
Proof. exact case_start. Qed.
(** Arrays of different lengths (none of them of length one, which jax stretches) have no calibration error. *)
Theorem C164_error_lengths : forall rnd f o t w v n table, ierror rnd f o t w v n = Ok table ->
  points (t_array t) <> 1%nat -> (forall g, w = Some g -> length (g_rows g) <> 1%nat) -> (forall x, v = Some x -> points x <> 1%nat) ->
  (forall g, w = Some g -> length (g_rows g) = points (t_array t)) /\ (forall x, v = Some x -> points x = points (t_array t)).
Proof. exact error_lengths. Qed.
Print Assumptions C164_error_lengths.
Example C164_case_error_lengths : points (t_array (reals [1; 1; 0; 1])) = 4%nat /\ length (g_rows two) = 4%nat /\ halves 4 <> None /\
  (exists table, ierror still Mvp (after Mvp blank a_mvp) (reals [1; 1; 0; 1]) (Some two) (halves 4) 3 = Ok table) /\
  ierror still Mvp (after Mvp blank a_mvp) (reals [1; 1; 0; 1]) (Some two) (halves 3) 3 = Err TypeError /\
  ierror still Mvp (after Mvp blank a_mvp) (reals [1; 1; 0]) (Some two) (halves 3) 3 = Err TypeError.
Proof. do 2 (split; [reflexivity|]). split; [discriminate|]. split; [eexists; vm_compute; reflexivity|]. split; vm_compute; reflexivity. Qed.
Example C164_case_error : tidy_table (ierror still Mvp (after Mvp blank a_mvp) (reals [1; 1; 0; 1]) (Some two) (halves 4) 3) = Ok [[Some (1 # 16)]; [Some (9 # 16)]] /\
  tidy_table (ierror still (Mc (TopLabel 2)) blank (labels [0; 1; 0; 0]) None leaning 3) = Ok [[Some (9 # 400); Some 0]] /\
  ierror still Mvp (after Mvp blank a_mvp) (reals [1; 1; 0; 1]) (Some two) None 3 = Err TypeError.
Proof. exact case_error. Qed.
Example C164_case_chosen : let o := after (Mc Plain) blank a_rare in
  map (fun p => (k_g (fst p), Qred (k_v (fst p)), Qred (snd p))) (firstn 2 (i_patches o)) = [(0%nat, 0, 1); (0%nat, 0, 0)] /\ fitted_on still a_rare 8 = [0; 1; 2; 3]%nat /\ least (Mc Plain) a_rare = 1 # 2.
Proof. exact case_chosen. Qed.
