(** Toy tokenizers and counterexamples for the text data loaders. *)
From Coq Require Import List Arith ZArith Lia Bool.
From Verif Require Import Lib TextModel HfModel HfSpec.
Import ListNotations.

(** a text is the list of its tokens *)
Definition toy_tok (n : nat) (x : list Z) : list Z := firstn n x.
Definition toy_pair (limit : option nat) (a b : list Z) : list Z :=
  match limit with Some n => firstn n (a ++ b) | None => a ++ b end.
Definition toy_join (h c : list Z) : list Z := h ++ c.

Lemma drop_last_labels : exists (ls : list Z) batches,
  seq_loader_pass toy_tok 0%Z Longest 5 1000 2 false true [] [[1];[2];[3]]%Z (Some ls) = Ok batches /\
  exists k, loader_num_labels None batches = Ok k /\ k < length (nodup Z.eq_dec ls).
Proof.
  exists [0;0;1]%Z. eexists. split; [vm_compute; reflexivity|]. exists 1. split; [vm_compute; reflexivity|]. vm_compute. lia.
Qed.

Lemma uneven_choices : exists (c0 h0 c1 h1 : list Z) (ch0 ch1 : list (list Z)) batches groups group,
  multi_loader_pass toy_pair toy_join (Some 2) None 0%Z 1000 2 false false [] [(c0, h0, ch0); (c1, h1, ch1)] (Some [0;1]%Z) = Ok batches /\
  map fst batches = [groups] /\ nth_error groups 0 = Some group /\
  exists c row, In c ch1 /\ In row group /\ row = toy_pair None c0 (toy_join h1 c) /\
    ~ In row (map (fun c => toy_pair None c0 (toy_join h0 c)) ch0).
Proof.
  exists [1]%Z, [10]%Z, [2]%Z, [20]%Z, [[11]]%Z, [[21];[22];[23]]%Z. eexists _, _, _.
  split; [vm_compute; reflexivity|]. split; [reflexivity|]. split; [reflexivity|].
  exists [21]%Z, [1;20;21]%Z. split; [now left|]. split; [right; now left|]. split; [reflexivity|].
  intros [H|[]]. discriminate H.
Qed.

Lemma pair_length : exists (tok : option nat -> list Z -> list Z -> list Z) (max_length : nat) (examples : list (example (list Z))) batches,
  (forall n a b, length (tok (Some n) a b) <= n) /\
  multi_loader_pass tok toy_join (Some 2) None 0%Z 1000 2 false false [] examples (Some [0]%Z) = Ok batches /\
  exists groups group row, In groups (map fst batches) /\ In group groups /\ In row group /\ max_length < length row.
Proof.
  exists toy_pair, 2, [([1], [10], [[11];[12]])]%Z. eexists. split.
  - intros n a b. unfold toy_pair. rewrite firstn_length. lia.
  - split; [vm_compute; reflexivity|]. eexists _, _, _. split; [left; reflexivity|]. split; [left; reflexivity|].
    split; [left; reflexivity|]. vm_compute. lia.
Qed.

Definition toy_texts : list (list Z) := [7]%Z :: repeat [] 999 ++ [[8]%Z].
Lemma tokens_lost : exists (texts : list (list Z)) (max_length : nat),
  length (concat texts) = max_length /\ 1 <= max_length /\
  mlm_loader_pass (fun x => x) (map (fun _ => false)) true (Some 3%Z) 0%Z None (fun _ _ _ => mk_draw true true false 0%Z)
    max_length 1000 1 false false (seq 0) texts = Ok [].
Proof. exists toy_texts, 2. split; [vm_compute; reflexivity|]. split; [lia|]. vm_compute. reflexivity. Qed.
