(** Properties C09-C11, C56, C57: text data sets, collators, and the data
    preparation of the hallucination detector. *)
From Coq Require Import List Arith ZArith Lia Permutation Bool.
From Verif Require Import Lib TextModel TextProofs ExtraProofs.
Import ListNotations.

(** C09 *)
Theorem C09_every_index_once : forall n b shuffle perm, 1 <= b -> Permutation perm (seq 0 n) ->
  exists bs, get_batches_idxs n b shuffle false perm = Ok bs /\
    concat bs = (if shuffle then perm else seq 0 n) /\
    Permutation (concat bs) (seq 0 n) /\ Forall (fun c => 1 <= length c <= b) bs.
Proof. exact get_batches_idxs_spec. Qed.
Print Assumptions C09_every_index_once.

Theorem C09_drop_last : forall n b shuffle perm, 1 <= b -> Permutation perm (seq 0 n) ->
  exists bs dropped, get_batches_idxs n b shuffle true perm = Ok bs /\
    concat bs ++ dropped = (if shuffle then perm else seq 0 n) /\
    length dropped = n mod b /\ Forall (fun c => length c = b) bs /\ NoDup (concat bs).
Proof. exact get_batches_idxs_drop. Qed.
Print Assumptions C09_drop_last.

(** the size reported by the loader ignores drop_last *)
Theorem C09_size_with_drop_last_refuted :
  exists n b bs, get_batches_idxs n b false true [] = Ok bs /\
    hf_size (Some n) (length (concat bs)) <> length (concat bs).
Proof. exists 5, 2, [[0;1];[2;3]]. split; [exact eq_refl|]. intros H. discriminate H. Qed.
Print Assumptions C09_size_with_drop_last_refuted.

Example C09_case : get_batches_idxs 5 2 false false [] = Ok [[0;1];[2;3];[4]] /\
  get_batches_idxs 5 2 true true [4;2;0;1;3] = Ok [[4;2];[0;1]].
Proof. split; reflexivity. Qed.

(** C10 *)
Theorem C10_chunks : forall A m (tokens : list (list A)), 1 <= m ->
  exists cs tail, mlm_chunks m tokens = Ok cs /\ concat cs ++ tail = concat tokens /\
    Forall (fun c => length c = m) cs /\ length tail < m.
Proof. intros A. exact (@mlm_chunks_spec A). Qed.
Print Assumptions C10_chunks.

Example C10_case : mlm_chunks 3 [[1;2];[3;4;5];[6;7]] = Ok [[1;2;3];[4;5;6]].
Proof. reflexivity. Qed.

(** C11 *)
Theorem C11_masking : forall mask_id inputs special ds i t s d,
  nth_error inputs i = Some t -> nth_error special i = Some s -> nth_error ds i = Some d ->
  exists inp lab, nth_error (mask_tokens mask_id inputs special ds) i = Some (inp, lab) /\
    (s = true -> lab = ignore_index /\ inp = t) /\
    (d_sel d = false -> lab = ignore_index /\ inp = t) /\
    (s = false -> d_sel d = true -> lab = t /\ (inp = mask_id \/ inp = d_word d \/ inp = t)).
Proof. exact mask_tokens_spec. Qed.
Print Assumptions C11_masking.

Theorem C11_length : forall mask_id inputs special ds,
  length special = length inputs -> length ds = length inputs ->
  length (mask_tokens mask_id inputs special ds) = length inputs.
Proof. exact mask_tokens_length. Qed.
Print Assumptions C11_length.

Theorem C11_plain : forall mask_id pad inputs special ds,
  exists out, collate_lm false mask_id pad inputs special ds = Ok out /\ map fst out = inputs /\
  (forall i t, nth_error inputs i = Some t ->
     nth_error (map snd out) i = Some (if match pad with Some p => Z.eqb t p | None => false end then ignore_index else t)).
Proof. exact collate_plain. Qed.
Print Assumptions C11_plain.

Theorem C11_collate : forall mask_id pad inputs ds,
  collate_lm true mask_id pad inputs None ds = Err AttributeError /\
  forall special, collate_lm true mask_id pad inputs (Some special) ds = Ok (mask_tokens mask_id inputs special ds).
Proof. exact collate_masked. Qed.
Print Assumptions C11_collate.

Example C11_case : mask_tokens 103%Z [7;8;9]%Z [true;false;false]
   [mk_draw true true true 55; mk_draw true true false 55; mk_draw true false true 55]
  = [(7, -100); (103, 8); (55, 9)]%Z.
Proof. reflexivity. Qed.

Example C11_case_plain : collate_lm false 103 (Some 0)%Z [7;0;9]%Z None [] = Ok [(7, 7); (0, -100); (9, 9)]%Z.
Proof. reflexivity. Qed.

(** C56 *)
Theorem C56_multiple_choice : forall F G (g : F -> G) (features : list (list F)) n,
  features <> [] -> Forall (fun f => length f = n) features ->
  multiple_choice_collate (map g) features = Ok (map (map g) features).
Proof. intros F G. exact (@multiple_choice_spec F G). Qed.
Print Assumptions C56_multiple_choice.

Example C56_case : multiple_choice_collate (map S) [[1;2];[3;4];[5;6]] = Ok [[2;3];[4;5];[6;7]].
Proof. reflexivity. Qed.

(** C57 *)
Theorem C57_batches : forall A B (texts : list A) (contexts : list B) b, 1 <= b ->
  length texts = length contexts ->
  exists bs, hbatch texts contexts b = Ok bs /\
    concat (map fst bs) = texts /\ concat (map snd bs) = contexts /\
    Forall (fun p => length (fst p) = length (snd p) /\ 1 <= length (fst p) <= b) bs.
Proof. intros A B. exact (@hbatch_spec A B). Qed.
Print Assumptions C57_batches.

Theorem C57_balance : forall A B choice (texts : list A) (contexts : list B) targets,
  (forall l k, length (choice l k) = k) ->
  (forall l k, l <> [] -> incl (choice l k) l) ->
  length texts = length targets -> length contexts = length targets ->
  (In 0 targets /\ In 1 targets) ->
  exists et ec ey, balance_data choice texts contexts targets
      = Ok (texts ++ et, contexts ++ ec, targets ++ ey) /\
    count_label 0 (targets ++ ey) = count_label 1 (targets ++ ey) /\
    (exists idx, map Some et = map (nth_error texts) idx /\ map Some ec = map (nth_error contexts) idx /\
                 map Some ey = map (nth_error targets) idx).
Proof. intros A B. exact (@balance_spec A B). Qed.
Print Assumptions C57_balance.

Example C57_case :
  balance_data (fun l k => repeat (hd 0 l) k) [10;20;30;40] [1;2;3;4] [1;0;1;1]
  = Ok ([10;20;30;40;20;20], [1;2;3;4;2;2], [1;0;1;1;0;0]).
Proof. reflexivity. Qed.
