(** What Predictive.sample returns over several devices. *)
From Coq Require Import List Arith Lia.
From Verif Require Import Lib LoaderModel LoaderSpec LoaderProofs LoaderProofs2.
Import ListNotations.

Lemma concat_axis1_rows {A} (s : nat) (parts : list (list (list A))) : parts <> [] ->
  Forall (fun p => length p = s) parts ->
  concat_axis1 s parts = Ok (map (fun j => flat_map (fun p => nth j p []) parts) (seq 0 s)).
Proof.
  intros NE F. unfold concat_axis1. destruct parts as [|p0 ps]; [congruence|]. f_equal. apply map_ext_in. intros j Hj. apply in_seq in Hj.
  rewrite !flat_map_concat_map. f_equal. apply map_ext_in. intros p Hp. rewrite Forall_forall in F. specialize (F p Hp).
  rewrite (nth_error_nth' p []) by lia. reflexivity.
Qed.
Lemma nth_grid {A B} (gs : list (A -> B)) (g0 : A -> B) (shards : list (list A)) : forall k i, i < length gs -> k < length shards ->
  nth (k * length gs + i) (concat (map (fun b => map (fun g => map g b) gs) shards)) [] = map (nth i gs g0) (nth k shards []).
Proof.
  induction shards as [|b r IH]; intros k i Hi Hk; cbn in Hk; [lia|]. cbn [map concat]. destruct k as [|k].
  - cbn [Nat.mul Nat.add]. rewrite app_nth1 by (rewrite map_length; exact Hi). cbn [nth].
    rewrite (nth_indep _ [] ((fun g => map g b) g0)) by (rewrite map_length; exact Hi). exact (map_nth (fun g => map g b) gs g0 i).
  - rewrite app_nth2 by (rewrite map_length; nia). rewrite map_length. replace (S k * length gs + i - length gs) with (k * length gs + i) by lia.
    rewrite IH by lia. reflexivity.
Qed.
Lemma grid_length {A B} (gs : list (A -> B)) (shards : list (list A)) : length (concat (map (fun b => map (fun g => map g b) gs) shards)) = length shards * length gs.
Proof. induction shards as [|b r IH]; [reflexivity|]. cbn [map concat length]. rewrite app_length, map_length, IH. lia. Qed.

Theorem sample_distributed_rows {A B} (gs : list (A -> B)) (g0 : A -> B) d (loader : list (list A)) : 1 <= d -> loader <> [] -> Forall (fun b => length b mod d = 0) loader ->
  exists rows, sample_distributed d (length gs) (fun b => map (fun g => map g b) gs) loader = Ok rows /\ length rows = d * length gs /\
  forall k i, k < d -> i < length gs ->
    nth_error rows (k * length gs + i) = Some (flat_map (fun b => let m := length b / d in map (nth i gs g0) (firstn m (skipn (k * m) b))) loader).
Proof.
  intros Hd NE F. unfold sample_distributed.
  set (sh := fun b : list A => map (fun i => slice (i * (length b / d)) (S i * (length b / d)) b) (seq 0 d)).
  rewrite (mapM_ok_map _ (fun b => concat (map (fun c => map (fun g => map g c) gs) (sh b)))).
  2:{ intros b Hb. rewrite Forall_forall in F. unfold reshape_devices. rewrite (F b Hb). reflexivity. }
  cbn [bind]. rewrite concat_axis1_rows.
  2:{ destruct loader; [congruence|discriminate]. }
  2:{ apply Forall_map, Forall_forall. intros b _. rewrite grid_length. unfold sh. rewrite map_length, seq_length. reflexivity. }
  eexists. split; [reflexivity|]. split; [rewrite map_length, seq_length; reflexivity|]. intros k i Hk Hi.
  assert (L : k * length gs + i < d * length gs) by nia.
  rewrite nth_error_map, (nth_error_nth' (seq 0 (d * length gs)) 0) by (rewrite seq_length; exact L). rewrite seq_nth by exact L. cbn [option_map Nat.add]. f_equal.
  rewrite !flat_map_concat_map, map_map. f_equal. apply map_ext. intros b. rewrite (nth_grid gs g0) by (unfold sh; rewrite ?map_length, ?seq_length; assumption). f_equal.
  unfold sh. rewrite (nth_indep _ [] ((fun i => slice (i * (length b / d)) (S i * (length b / d)) b) 0)) by (rewrite map_length, seq_length; exact Hk).
  rewrite (map_nth (fun i => slice (i * (length b / d)) (S i * (length b / d)) b) (seq 0 d) 0 k), seq_nth by exact Hk. cbn [Nat.add].
  unfold slice. f_equal. lia.
Qed.
