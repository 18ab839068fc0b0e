(** Concrete cases of the sets of BatchMVP. *)
From Coq Require Import List Arith ZArith QArith Qabs Bool Lia Lqa.
From Verif Require Import Lib QuantModel ConfRegModel ConfClassModel ConfClassSpec MultiModel MultiSpec MultiSpec3 OneShotModel OneShotSpec IterModel IterSpec IterCases MvpSetModel MvpSetSpec MvpSetProofs MvpSetProofs2.
Import ListNotations.
Open Scope Q_scope.

Definition three_quarters : list Q := [3 # 4; 3 # 4; 3 # 4; 3 # 4].
Definition a_gap := setting (reals three_quarters) None (Some (Vec [0; 0; 0; 0])) None None 2 [0%nat] Additive (1 # 2) 1.
Definition a_full := setting (reals [1 # 2; 1; 1 # 2; 1; 1 # 2; 1; 1 # 2; 1])
  (Some (cols 2 [[true; false]; [true; false]; [false; true]; [true; true]; [true; false]; [true; false]; [false; true]; [true; true]])) (Some (Vec (repeat 0 8))) None None 5 [0%nat] Additive 1 (3 # 4).
Lemma gap_fine : in_scope Mvp a_gap /\ fine Mvp a_gap /\ known_types a_gap.
Proof.
  split; [|split].
  - split; [cbn; lia|]. split; [discriminate|]. intros _ v [[= <-]|[=]]. reflexivity.
  - split; [intros _; split; cbn; lra|]. split; [|split; [|split; [|split]]].
    + split; [cbn; lia|]. split; [cbn; split; unfold Qle, Qlt; cbn; lia|]. split; [cbn; split; unfold Qle, Qlt; cbn; lia|]. split; [intros p [= <-]; split; unfold Qle, Qlt; cbn; lia|]. split; [discriminate|]. repeat split; cbn; intros; congruence.
    + eexists. split; [reflexivity|]. repeat constructor; unfold Qle; cbn; lia.
    + intros g [H|H]; discriminate H.
    + intros v [= <-]. split; [reflexivity|]. repeat constructor; unfold Qle; cbn; lia.
    + discriminate.
  - intros t [<-|[]]. lia.
Qed.
Lemma full_fine : in_scope Mvp a_full /\ fine Mvp a_full /\ known_types a_full.
Proof.
  split; [|split].
  - split; [cbn; lia|]. split; [intros g [= <-]; cbn; lia|]. intros _ v [[= <-]|[=]]. reflexivity.
  - split; [intros _; split; unfold Qle; cbn; lia|]. split; [|split; [|split; [|split]]].
    + split; [cbn; lia|]. split; [cbn; split; unfold Qle, Qlt; cbn; lia|]. split; [cbn; split; unfold Qle, Qlt; cbn; lia|]. split; [intros p [= <-]; split; unfold Qle, Qlt; cbn; lia|]. split; [discriminate|]. repeat split; cbn; intros; congruence.
    + eexists. split; [reflexivity|]. repeat constructor; unfold Qle; cbn; lia.
    + intros g [H|H]; [|discriminate H]. injection H as <-. split; reflexivity.
    + intros v [= <-]. split; [reflexivity|]. repeat constructor; unfold Qle; cbn; lia.
    + discriminate.
  - intros t [<-|[]]. lia.
Qed.
Theorem gap_refuted : exists rnd a ss xs table e rows ys sets, tame rnd /\ in_scope Mvp a /\ fine Mvp a /\ known_types a /\ (2 <= a_n a)%nat /\
  let o := snd (icalibrate rnd Mvp blank a) in
  iapply rnd Mvp o None (a_values a) = Ok (Some (Vec xs)) /\ ierror rnd Mvp o (a_targets a) None (Some (Vec xs)) (a_n a) = Ok table /\ nth 0 (nth 0 table []) None = Some e /\ e == 0 /\ a_coverage a == 1 /\
  t_array (a_targets a) = Vec ss /\ Forall2 (fun ry s => nth_error (fst ry) (snd ry) = Some s) (combine rows ys) ss /\
  conformal_set (Mat rows) (Vec xs) = Ok sets /\ is_in ys sets = Ok (map (fun _ => false) ys) /\ (0 < length ys)%nat.
Proof.
  exists still, a_gap, three_quarters. do 3 eexists. exists (repeat [1 # 4; 3 # 4] 4), [1%nat; 1%nat; 1%nat; 1%nat]. eexists. split; [exact still_tame|]. destruct gap_fine as (A & B & C). do 3 (split; [assumption|]). split; [cbn; lia|]. cbv zeta.
  split; [vm_compute; reflexivity|]. split; [vm_compute; reflexivity|]. split; [vm_compute; reflexivity|]. split; [vm_compute; reflexivity|]. split; [reflexivity|]. split; [reflexivity|]. split; [repeat constructor|]. split; [vm_compute; reflexivity|]. split; [vm_compute; reflexivity|]. cbn. lia.
Qed.
Lemma case_sets : conformal_set (Mat [[1 # 4; 3 # 4; 1 # 2]; [1; 0; 1]; [1; 1; 1]; [1 # 8; 1; 1 # 4]]) (Vec [1 # 2; 1 # 2; 1 # 2; 1 # 4]) = Ok [Some [0%nat; 2%nat]; Some [1%nat]; Some []; Some [0%nat; 2%nat]] /\
  is_in [2%nat; 2%nat; 0%nat; 0%nat] [Some [0%nat; 2%nat]; Some [1%nat]; Some []; Some [0%nat; 2%nat]] = Ok [true; false; false; true] /\
  conformal_set (Mat [[1; 0]]) (Vec [0; 0]) = Err ValueError /\ conformal_set (Vec [1; 0]) (Vec [0; 0]) = Err ValueError.
Proof. split; [|split; [|split]]; vm_compute; reflexivity. Qed.
Lemma case_coverage :
  let o := after Mvp blank a_full in let scores := reals [1 # 2; 1 # 2; 1; 1 # 4] in
  tidy (iapply still Mvp o (Some two) (Some (Vec [0; 0; 0; 0]))) = Ok (Some (Vec [1; 1 # 2; 1; 1 # 2])) /\
  tidy_table (ierror still Mvp o scores (Some two) (Some (Vec [1; 1 # 2; 1; 1 # 2])) 5) = Ok [[Some (1 # 16)]; [Some (1 # 16)]] /\
  conformal_set (Mat [[1 # 2; 0]; [0; 1 # 2]; [0; 1]; [1 # 4; 3 # 4]]) (Vec [1; 1 # 2; 1; 1 # 2]) = Ok [Some [0%nat; 1%nat]; Some [0%nat; 1%nat]; Some [0%nat; 1%nat]; Some [0%nat]].
Proof. split; [|split]; vm_compute; reflexivity. Qed.
(** three points, any number of buckets *)
Definition a_three (n : nat) := setting (reals [1 # 4; 1 # 2; 3 # 4]) None (Some (Vec [0; 0; 0])) None None n [0%nat] Additive 1 (1 # 2).
Lemma three_fine n : (2 <= n)%nat -> in_scope Mvp (a_three n) /\ fine Mvp (a_three n) /\ known_types (a_three n).
Proof.
  intros N. split; [|split].
  - split; [cbn; lia|]. split; [discriminate|]. intros _ v [[= <-]|[=]]. reflexivity.
  - split; [intros _; split; cbn; lra|]. split; [|split; [|split; [|split]]].
    + split; [cbn; lia|]. split; [cbn; split; unfold Qle, Qlt; cbn; lia|]. split; [cbn; split; unfold Qle, Qlt; cbn; lia|]. split; [intros p [= <-]; split; unfold Qle, Qlt; cbn; lia|]. split; [discriminate|]. repeat split; cbn; intros; congruence.
    + eexists. split; [reflexivity|]. repeat constructor; unfold Qle; cbn; lia.
    + intros g [H|H]; discriminate H.
    + intros v [= <-]. split; [reflexivity|]. repeat constructor; unfold Qle; cbn; lia.
    + discriminate.
  - intros t [<-|[]]. lia.
Qed.
Lemma case_three : map (fun n => let o := after Mvp blank (a_three n) in
    match iapply still Mvp o None (Some (Vec [0; 0; 0])) with Ok (Some v) => tidy_table (ierror still Mvp o (reals [1 # 4; 1 # 2; 3 # 4]) None (Some v) n) | _ => Err ValueError end) [2; 3; 5; 8]%nat = [Ok [[Some (1 # 4)]]; Ok [[Some (1 # 4)]]; Ok [[Some (1 # 36)]]; Ok [[Some (1 # 36)]]].
Proof. vm_compute. reflexivity. Qed.
