(** Properties C124-C126: the data loaders of text datasets. *)
From Coq Require Import List Arith ZArith Bool Permutation.
From Verif Require Import Lib TextModel HfModel HfSpec HfProofs HfProofs2 HfProofs3 HfCases.
Import ListNotations.

(** ==== C124: sequence classification ==== *)

(** with padding: every example of the pass once, with its own label, in rows of one width per
    batch: the longest of the batch, or max_length *)
Theorem C124_padded : forall X (tok : nat -> X -> list Z) pad_id pd max_length map_size b shuffle drop perm (texts : list X) labels,
  1 <= b -> 1 <= map_size -> Permutation perm (seq 0 (length texts)) ->
  (forall ls, labels = Some ls -> length ls = length texts) ->
  (forall x, length (tok max_length x) <= max_length) ->
  pd <> NoPadding ->
  exists batches, seq_loader_pass tok pad_id pd max_length map_size b shuffle drop perm texts labels = Ok batches /\
    delivers (fun xs rows => exists w, padded_rows (tok max_length) pad_id w xs rows /\
                match pd with MaxLength => w = max_length | _ => longest (tok max_length) xs w end)
      texts labels b (pass_order (length texts) b shuffle drop perm) batches.
Proof. exact (@seq_delivers). Qed.
Print Assumptions C124_padded.

(** without padding: the tokens themselves when all sequences have one length *)
Theorem C124_same_lengths : forall X (tok : nat -> X -> list Z) pad_id max_length map_size b shuffle drop perm (texts : list X) labels w,
  1 <= b -> 1 <= map_size -> Permutation perm (seq 0 (length texts)) ->
  (forall ls, labels = Some ls -> length ls = length texts) ->
  (forall x, In x texts -> length (tok max_length x) = w) ->
  exists batches, seq_loader_pass tok pad_id NoPadding max_length map_size b shuffle drop perm texts labels = Ok batches /\
    delivers (fun xs rows => rows = map (tok max_length) xs) texts labels b (pass_order (length texts) b shuffle drop perm) batches.
Proof. exact (@seq_same_lengths). Qed.
Print Assumptions C124_same_lengths.

(** without padding, two lengths in one batch raise *)
Theorem C124_ragged_raises : forall X (tok : nat -> X -> list Z) pad_id max_length map_size b shuffle drop perm (texts : list X) labels idxss idxs i j x y,
  1 <= b -> 1 <= map_size -> Permutation perm (seq 0 (length texts)) ->
  (forall ls, labels = Some ls -> length ls = length texts) ->
  get_batches_idxs (length texts) b shuffle drop perm = Ok idxss -> In idxs idxss -> In i idxs -> In j idxs ->
  nth_error texts i = Some x -> nth_error texts j = Some y -> length (tok max_length x) <> length (tok max_length y) ->
  seq_loader_pass tok pad_id NoPadding max_length map_size b shuffle drop perm texts labels = Err ValueError.
Proof. exact (@seq_ragged). Qed.
Print Assumptions C124_ragged_raises.

(** the number of labels found by a full pass is the number of distinct labels *)
Theorem C124_num_labels : forall X C (good : list X -> C -> Prop) examples ls b shuffle perm batches,
  delivers good examples (Some ls) b (pass_order (length ls) b shuffle false perm) batches ->
  Permutation perm (seq 0 (length ls)) -> ls <> [] ->
  exists k distinct, loader_num_labels None batches = Ok k /\ NoDup distinct /\ (forall y, In y distinct <-> In y ls) /\ k = length distinct.
Proof. exact (@num_labels_of_pass). Qed.
Print Assumptions C124_num_labels.
Example C124_case_delivers : delivers (fun xs c => c = xs) [5; 6; 8] (Some [1; 0; 2]%Z) 2 [2; 0; 1] [([8; 5], Some [2; 1]%Z); ([6], Some [0]%Z)] /\ Permutation [2; 0; 1] (seq 0 3).
Proof.
  split.
  - exists [[2; 0]; [1]]. split; [reflexivity|]. split; [repeat constructor|]. repeat constructor; cbn; (eexists; split; [|reflexivity]; repeat constructor).
  - cbn. apply perm_trans with [0; 2; 1]; [apply perm_swap|]. apply perm_skip. apply perm_swap.
Qed.

Theorem C124_unlabelled_targets_raise : forall X C (good : list X -> C -> Prop) examples b order batches,
  delivers good examples None b order batches -> order <> [] -> loader_targets batches = Err TypeError.
Proof. exact (@unlabelled_targets). Qed.
Print Assumptions C124_unlabelled_targets_raise.

(** with drop_last it can be smaller *)
Theorem C124_drop_last_labels_refuted : exists (ls : list Z) batches,
  seq_loader_pass toy_tok 0%Z Longest 5 1000 2 false true [] [[1];[2];[3]]%Z (Some ls) = Ok batches /\
  exists k, loader_num_labels None batches = Ok k /\ k < length (nodup Z.eq_dec ls).
Proof. exact (@drop_last_labels). Qed.
Print Assumptions C124_drop_last_labels_refuted.

(** all passes over a shuffled loader are equal: the order is drawn once *)
Theorem C124_no_reshuffle : forall K R C (permutation : K -> nat -> list nat) (collate : nat -> list R -> result C) b shuffle drop rng rows labels k i,
  i < k ->
  nth_error (hf_passes permutation (fun _ => collate) b shuffle drop rng rows labels k) i =
    Some (loader_pass collate b shuffle drop (permutation rng (length rows)) rows labels).
Proof. exact (@passes_equal). Qed.
Print Assumptions C124_no_reshuffle.

Example C124_case :
  seq_loader_pass toy_tok 0%Z Longest 3 2 2 true false [2;0;1] [[5];[6;7];[8;9;10;11]]%Z (Some [1;0;2]%Z) =
    Ok [([[8;9;10];[5;0;0]], Some [2;1]); ([[6;7]], Some [0])]%Z /\
  seq_loader_pass toy_tok 0%Z MaxLength 3 2 2 false true [] [[5];[6;7];[8;9;10;11]]%Z None =
    Ok [([[5;0;0];[6;7;0]], None)]%Z /\
  seq_loader_pass toy_tok 0%Z NoPadding 3 2 2 false false [] [[5];[6;7];[8;9;10;11]]%Z None = Err ValueError /\
  loader_num_labels None [([[8;9;10];[5;0;0]], Some [2;1]); ([[6;7]], Some [1])]%Z = Ok 2.
Proof. repeat split. Qed.

(** ==== C125: multiple choice ==== *)

(** when every example has as many choices as there are labels: one padded row per choice, made
    of the example's own sentences, and its own label *)
Theorem C125_choices : forall X (tok : option nat -> X -> X -> list Z) join k multiple pad_id map_size b shuffle drop perm (examples : list (example X)) ls,
  1 <= b -> 1 <= map_size -> 1 <= k -> multiple <> Some 0 -> Permutation perm (seq 0 (length examples)) -> length ls = length examples ->
  (forall e, In e examples -> length (snd e) = k) ->
  exists batches, multi_loader_pass tok join (Some k) multiple pad_id map_size b shuffle drop perm examples (Some ls) = Ok batches /\
    delivers (fun es groups => exists n w, longest (fun p => tok None (fst p) (snd p)) (sentence_pairs join es) n /\ rounds_up multiple n w /\
                Forall2 (choice_rows (tok None) join pad_id w) es groups)
      examples (Some ls) b (pass_order (length examples) b shuffle drop perm) batches.
Proof. exact (@multi_delivers). Qed.
Print Assumptions C125_choices.

(** choices given in several columns *)
Theorem C125_columns : forall X (columns : list (list X)) n, (forall col, In col columns -> length col = n) ->
  exists cs, choices_of_columns columns n = Ok cs /\ length cs = n /\
    forall i j col x, nth_error columns j = Some col -> nth_error col i = Some x -> exists c, nth_error cs i = Some c /\ length c = length columns /\ nth_error c j = Some x.
Proof. exact (@choices_columns). Qed.
Print Assumptions C125_columns.

(** examples with different numbers of choices are accepted and mixed *)
Theorem C125_uneven_refuted : exists (c0 h0 c1 h1 : list Z) (ch0 ch1 : list (list Z)) batches groups group,
  multi_loader_pass toy_pair toy_join (Some 2) None 0%Z 1000 2 false false [] [(c0, h0, ch0); (c1, h1, ch1)] (Some [0;1]%Z) = Ok batches /\
  map fst batches = [groups] /\ nth_error groups 0 = Some group /\
  exists c row, In c ch1 /\ In row group /\ row = toy_pair None c0 (toy_join h1 c) /\
    ~ In row (map (fun c => toy_pair None c0 (toy_join h0 c)) ch0).
Proof. exact (@uneven_choices). Qed.
Print Assumptions C125_uneven_refuted.

(** the maximum length is not applied *)
Theorem C125_max_length_refuted : exists (tok : option nat -> list Z -> list Z -> list Z) (max_length : nat) (examples : list (example (list Z))) batches,
  (forall n a b, length (tok (Some n) a b) <= n) /\
  multi_loader_pass tok toy_join (Some 2) None 0%Z 1000 2 false false [] examples (Some [0]%Z) = Ok batches /\
  exists groups group row, In groups (map fst batches) /\ In group groups /\ In row group /\ max_length < length row.
Proof. exact (@pair_length). Qed.
Print Assumptions C125_max_length_refuted.

(** test sets without a target column, and a dataset without number of labels *)
Theorem C125_no_target_raises : forall X (tok : option nat -> X -> X -> list Z) join k multiple pad_id map_size b shuffle drop perm (examples : list (example X)),
  1 <= map_size -> 1 <= k -> examples <> [] -> (forall e, In e examples -> length (snd e) = k) ->
  multi_loader_pass tok join (Some k) multiple pad_id map_size b shuffle drop perm examples None = Err KeyError.
Proof. exact (@multi_no_target). Qed.
Print Assumptions C125_no_target_raises.

Theorem C125_no_number_raises : forall X (tok : option nat -> X -> X -> list Z) join multiple pad_id map_size b shuffle drop perm (examples : list (example X)) labels,
  1 <= map_size -> examples <> [] ->
  multi_loader_pass tok join None multiple pad_id map_size b shuffle drop perm examples labels = Err TypeError.
Proof. exact (@multi_no_number). Qed.
Print Assumptions C125_no_number_raises.

Example C125_case :
  multi_loader_pass toy_pair toy_join (Some 2) (Some 4) 0%Z 1 2 true false [1;0] [([1], [10], [[11];[12]]); ([2], [20], [[21;21;21];[22]])]%Z (Some [0;1]%Z) =
    Ok [([[[2;20;21;21;21;0;0;0];[2;20;22;0;0;0;0;0]]; [[1;10;11;0;0;0;0;0];[1;10;12;0;0;0;0;0]]], Some [1;0])]%Z /\
  choices_of_columns [[1;2];[3;4];[5;6]]%Z 2 = Ok [[1;3;5];[2;4;6]]%Z.
Proof. split; reflexivity. Qed.

(** ==== C126: masked and causal language models ==== *)

(** every chunk of the pass once; the original tokens can be recovered from inputs and labels,
    special tokens and padding are neither changed nor labelled; without masking the labels are
    the inputs except at padding *)
Theorem C126_rows : forall X (tok : X -> list Z) (special : X -> list bool) mlm mask_id pad multiple draws max_length map_size b shuffle drop perm (texts : list X),
  1 <= b -> 1 <= map_size -> 1 <= max_length -> multiple <> Some 0 -> (forall n, Permutation (perm n) (seq 0 n)) ->
  (forall x, length (special x) = length (tok x)) -> (forall x t, In t (tok x) -> t <> (-100)%Z) ->
  (mlm = true -> mask_id <> None) ->
  exists chunks batches w, cut_by_parts max_length map_size (fun x => combine (tok x) (special x)) texts chunks /\
    rounds_up multiple max_length w /\
    mlm_loader_pass tok special mlm mask_id pad multiple draws max_length map_size b shuffle drop perm texts = Ok batches /\
    delivers (Forall2 (if mlm then masked_row pad w else causal_row pad w)) chunks None b
      (pass_order (length chunks) b shuffle drop (perm (length chunks))) (map (fun c => (c, None)) batches).
Proof. exact (@mlm_delivers). Qed.
Print Assumptions C126_rows.

(** without a mask token no batch is produced *)
Theorem C126_mask_token_needed : forall X (tok : X -> list Z) (special : X -> list bool) pad multiple draws max_length map_size b shuffle drop perm (texts : list X) batches,
  mlm_loader_pass tok special true None pad multiple draws max_length map_size b shuffle drop perm texts = Ok batches -> batches = [].
Proof. exact (@mlm_needs_mask). Qed.
Print Assumptions C126_mask_token_needed.

(** as many tokens as max_length, and no row at all: tokens are dropped at the end of every 1000
    texts *)
Theorem C126_tokens_lost_refuted : exists (texts : list (list Z)) (max_length : nat),
  length (concat texts) = max_length /\ 1 <= max_length /\
  mlm_loader_pass (fun x => x) (map (fun _ => false)) true (Some 3%Z) 0%Z None (fun _ _ _ => mk_draw true true false 0%Z)
    max_length 1000 1 false false (seq 0) texts = Ok [].
Proof. exact (@tokens_lost). Qed.
Print Assumptions C126_tokens_lost_refuted.

Example C126_case :
  mlm_loader_pass (fun x => x) (map (Z.eqb 1)) true (Some 3%Z) 0%Z (Some 2) (fun b r p => mk_draw (p =? b) (r =? 0) true 9%Z)
    3 2 1 false false (seq 0) [[1;5;6];[7];[1;8]]%Z = Ok [[[(1,-100);(5,-100);(6,-100);(0,-100)]]]%Z /\
  mlm_loader_pass (fun x => x) (map (Z.eqb 1)) true (Some 3%Z) 0%Z None (fun b r p => mk_draw (p =? 1) (r =? 0) true 9%Z)
    3 1000 2 true false (fun _ => [1;0]) [[1;5;6];[7];[1;8]]%Z = Ok [[[(7,-100);(1,-100);(8,-100)]; [(1,-100);(9,5);(6,-100)]]]%Z /\
  mlm_loader_pass (fun x => x) (map (Z.eqb 1)) false None 0%Z (Some 2) (fun _ _ _ => mk_draw true true true 9%Z)
    3 1000 2 false true (seq 0) [[1;5;6];[7];[1;8]]%Z = Ok [[[(1,1);(5,5);(6,6);(0,-100)]; [(7,7);(1,1);(8,8);(0,-100)]]]%Z.
Proof. repeat split. Qed.
