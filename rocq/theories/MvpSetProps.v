(** Theorems about the conformal sets of BatchMVP and the coverage of groups (C165). *)
From Coq Require Import List Arith ZArith QArith Qabs Bool.
From Verif Require Import Lib QuantModel ConfRegModel ConfClassModel ConfClassSpec MultiModel MultiSpec MultiSpec3 OneShotModel OneShotSpec IterModel IterSpec IterCases MvpSetModel MvpSetSpec MvpSetProofs MvpSetProofs2 MvpSetProofs3 MvpSetCases.
From Verif Require Import Lit.
Import ListNotations.
Open Scope Q_scope.

Theorem C165_sets : forall cs ths, (axes cs <> 2%nat \/ axes ths <> 1%nat \/ points cs <> points ths -> conformal_set cs ths = Err ValueError) /\
  forall rows l, cs = Mat rows -> ths = Vec l -> length rows = length l -> exists sets, conformal_set cs ths = Ok sets /\ length sets = length l /\
    forall i row th, nth_error rows i = Some row -> nth_error l i = Some th -> exists s, nth_error sets i = Some (Some s) /\ ascending_labels s /\ forall c, In c s <-> exists x, nth_error row c = Some x /\ x <= th.
Proof. exact (@sets_meaning). Qed.
Print Assumptions C165_sets.
Theorem C165_inside : forall rows l ys sets ss, conformal_set (Mat rows) (Vec l) = Ok sets -> length ys = length l -> Forall2 (fun ry s => nth_error (fst ry) (snd ry) = Some s) (combine rows ys) ss ->
  is_in ys sets = Ok (zip_with (fun s th => Qle_bool s th) ss l).
Proof. exact (@in_sets). Qed.
Print Assumptions C165_inside.
Theorem C165_group : forall rnd, tame rnd -> forall f o t l w xs n coverage table g e, one_value f -> good_targets (kind_of f) t -> t_array t = Vec l -> (0 < length l)%nat -> (0 < n)%nat -> (forall g, w = Some g -> proper g /\ length (g_rows g) = length l) ->
  values_fine f (Vec xs) -> length xs = length l -> (f = Mvp -> i_coverage o = Some coverage) -> ierror rnd f o t w (Some (Vec xs)) n = Ok table -> (g < g_width (groups_for w (length l)))%nat -> nth 0 (nth g table []) None = Some e ->
  let who := members_of g (groups_for w (length l)) in bucketed n who xs ->
  group_bias f coverage who l xs * group_bias f coverage who l xs <= e * (n_where who * n_where who).
Proof. exact (@group_error). Qed.
Print Assumptions C165_group.
Example C165_case_hypotheses : one_value Mvp /\ good_targets (kind_of Mvp) (reals [1 # 2; 1 # 2; 1; 1 # 4]) /\ proper two /\ values_fine Mvp (Vec [1; 1 # 2; 1; 1 # 2]) /\ bucketed 5 (members_of 0 two) [1; 1 # 2; 1; 1 # 2].
Proof.
  split; [exact I|]. split; [eexists; split; [reflexivity|]; repeat constructor; vm_compute; discriminate|]. split; [split; reflexivity|]. split; [split; [reflexivity|]; repeat constructor; vm_compute; discriminate|].
  intros i x _ H. destruct i as [|[|[|[|i]]]]; [| | | |destruct i; discriminate H]; injection H as <-; [exists 4%nat|exists 2%nat|exists 4%nat|exists 2%nat]; (split; [lia|reflexivity]).
Qed.
Theorem C165_grid : forall rnd, tame rnd -> forall o a g v out, reached rnd Mvp o -> in_scope Mvp a -> fine Mvp a -> known_types a -> (2 <= a_n a)%nat -> a_eta a == 1 -> (forall w, g = Some w -> (0 < length (g_rows w))%nat) ->
  (forall x, v = Some x -> (0 < points x)%nat /\ axes x = 1%nat /\ all_entries (on_grid (a_n a)) x) ->
  iapply rnd Mvp (snd (icalibrate rnd Mvp o a)) g v = Ok (Some out) -> axes out = 1%nat /\ all_entries (on_grid (a_n a)) out.
Proof. exact (@stays_on_grid). Qed.
Print Assumptions C165_grid.
Example C165_case_grid : reached still Mvp (after Mvp blank a_full) /\ (2 <= a_n a_full)%nat /\ a_eta a_full == 1 /\ all_entries (on_grid (a_n a_full)) (Vec [0; 1 # 4; 1]).
Proof.
  split; [apply again; [apply new|cbn; lia]|]. split; [cbn; lia|]. split; [reflexivity|]. repeat constructor; [exists 0%nat|exists 1%nat|exists 4%nat]; (split; [cbn; lia|reflexivity]).
Qed.
Theorem C165_coverage : forall rnd, tame rnd -> forall o a v t ss w xs rows ys table g e, reached rnd Mvp o -> in_scope Mvp a -> fine Mvp a -> known_types a -> (2 <= a_n a)%nat -> a_eta a == 1 ->
  (forall x, v = Some x -> (0 < points x)%nat /\ axes x = 1%nat /\ all_entries (on_grid (a_n a)) x) ->
  t_array t = Vec ss -> good_targets Plain t -> (0 < length ss)%nat -> (forall m, w = Some m -> proper m /\ length (g_rows m) = length ss) ->
  Forall2 (fun ry s => nth_error (fst ry) (snd ry) = Some s) (combine rows ys) ss -> length rows = length xs -> length ys = length xs ->
  let o' := snd (icalibrate rnd Mvp o a) in
  iapply rnd Mvp o' w v = Ok (Some (Vec xs)) -> ierror rnd Mvp o' t w (Some (Vec xs)) (a_n a) = Ok table -> (g < g_width (groups_for w (length ss)))%nat -> nth 0 (nth g table []) None = Some e ->
  exists sets inside, conformal_set (Mat rows) (Vec xs) = Ok sets /\ is_in ys sets = Ok inside /\
    let who := members_of g (groups_for w (length ss)) in
    let gap := a_coverage a * n_where who - n_where (both who inside) in gap * gap <= e * (n_where who * n_where who).
Proof. exact (@coverage_of_sets). Qed.
Print Assumptions C165_coverage.
Theorem C165_floor : forall rnd, tame rnd -> forall o a v t ss w xs table g e d, reached rnd Mvp o -> in_scope Mvp a -> fine Mvp a -> known_types a -> (2 <= a_n a)%nat -> a_eta a == 1 ->
  (forall x, v = Some x -> (0 < points x)%nat /\ axes x = 1%nat /\ all_entries (on_grid (a_n a)) x) ->
  t_array t = Vec ss -> good_targets Plain t -> (0 < length ss)%nat -> (forall m, w = Some m -> proper m /\ length (g_rows m) = length ss) -> length xs = length ss ->
  let o' := snd (icalibrate rnd Mvp o a) in
  iapply rnd Mvp o' w v = Ok (Some (Vec xs)) -> ierror rnd Mvp o' t w (Some (Vec xs)) (a_n a) = Ok table -> (g < g_width (groups_for w (length ss)))%nat -> nth 0 (nth g table []) None = Some e ->
  let who := members_of g (groups_for w (length ss)) in
  0 <= d -> (forall k : nat, d <= Qabs (a_coverage a * n_where who - inject_Z (Z.of_nat k))) -> d * d <= e * (n_where who * n_where who).
Proof. exact (@error_floor). Qed.
Print Assumptions C165_floor.
Theorem C165_odd_groups : forall rnd, tame rnd -> forall o a v t ss w xs table g e, reached rnd Mvp o -> in_scope Mvp a -> fine Mvp a -> known_types a -> (2 <= a_n a)%nat -> a_eta a == 1 ->
  (forall x, v = Some x -> (0 < points x)%nat /\ axes x = 1%nat /\ all_entries (on_grid (a_n a)) x) ->
  t_array t = Vec ss -> good_targets Plain t -> (0 < length ss)%nat -> (forall m, w = Some m -> proper m /\ length (g_rows m) = length ss) -> length xs = length ss ->
  let o' := snd (icalibrate rnd Mvp o a) in
  iapply rnd Mvp o' w v = Ok (Some (Vec xs)) -> ierror rnd Mvp o' t w (Some (Vec xs)) (a_n a) = Ok table -> (g < g_width (groups_for w (length ss)))%nat -> nth 0 (nth g table []) None = Some e ->
  let who := members_of g (groups_for w (length ss)) in
  a_coverage a == 1 # 2 -> Nat.odd (length (filter (fun b => b) who)) = true -> 1 # 4 <= e * (n_where who * n_where who).
Proof. exact (@half_floor). Qed.
Print Assumptions C165_odd_groups.
Example C165_case_odd_fine : forall n, (2 <= n)%nat -> in_scope Mvp (a_three n) /\ fine Mvp (a_three n) /\ known_types (a_three n).
Proof. exact three_fine. Qed.
Example C165_case_odd : map (fun n => let o := after Mvp blank (a_three n) in
    match iapply still Mvp o None (Some (Vec [0; 0; 0])) with Ok (Some v) => tidy_table (ierror still Mvp o (reals [1 # 4; 1 # 2; 3 # 4]) None (Some v) n) | _ => Err ValueError end) [2; 3; 5; 8]%nat =
  [Ok [[Some (1 # 4)]]; Ok [[Some (1 # 4)]]; Ok [[Some (1 # 36)]]; Ok [[Some (1 # 36)]]].
Proof. exact case_three. Qed.
Theorem C165_gap_refuted : exists rnd a ss xs table e rows ys sets, tame rnd /\ in_scope Mvp a /\ fine Mvp a /\ known_types a /\ (2 <= a_n a)%nat /\
  let o := snd (icalibrate rnd Mvp blank a) in
  iapply rnd Mvp o None (a_values a) = Ok (Some (Vec xs)) /\ ierror rnd Mvp o (a_targets a) None (Some (Vec xs)) (a_n a) = Ok table /\ nth 0 (nth 0 table []) None = Some e /\ e == 0 /\ a_coverage a == 1 /\
  t_array (a_targets a) = Vec ss /\ Forall2 (fun ry s => nth_error (fst ry) (snd ry) = Some s) (combine rows ys) ss /\
  conformal_set (Mat rows) (Vec xs) = Ok sets /\ is_in ys sets = Ok (map (fun _ => false) ys) /\ (0 < length ys)%nat.
Proof. exact (@gap_refuted). Qed.
Print Assumptions C165_gap_refuted.
Example C165_case_sets : conformal_set (Mat [[1 # 4; 3 # 4; 1 # 2]; [1; 0; 1]; [1; 1; 1]; [1 # 8; 1; 1 # 4]]) (Vec [1 # 2; 1 # 2; 1 # 2; 1 # 4]) = Ok [Some [0%nat; 2%nat]; Some [1%nat]; Some []; Some [0%nat; 2%nat]] /\
  is_in [2%nat; 2%nat; 0%nat; 0%nat] [Some [0%nat; 2%nat]; Some [1%nat]; Some []; Some [0%nat; 2%nat]] = Ok [true; false; false; true] /\
  conformal_set (Mat [[1; 0]]) (Vec [0; 0]) = Err ValueError /\ conformal_set (Vec [1; 0]) (Vec [0; 0]) = Err ValueError.
Proof. exact case_sets. Qed.
Example C165_case_coverage : let o := after Mvp blank a_full in let scores := reals [1 # 2; 1 # 2; 1; 1 # 4] in
  tidy (iapply still Mvp o (Some two) (Some (Vec [0; 0; 0; 0]))) = Ok (Some (Vec [1; 1 # 2; 1; 1 # 2])) /\
  tidy_table (ierror still Mvp o scores (Some two) (Some (Vec [1; 1 # 2; 1; 1 # 2])) 5) = Ok [[Some (1 # 16)]; [Some (1 # 16)]] /\
  conformal_set (Mat [[1 # 2; 0]; [0; 1 # 2]; [0; 1]; [1 # 4; 3 # 4]]) (Vec [1; 1 # 2; 1; 1 # 2]) = Ok [Some [0%nat; 1%nat]; Some [0%nat; 1%nat]; Some [0%nat; 1%nat]; Some [0%nat]].
Proof. exact case_coverage. Qed.
Example C165_case_fine : in_scope Mvp a_full /\ fine Mvp a_full /\ known_types a_full.
Proof. exact full_fine. Qed.
