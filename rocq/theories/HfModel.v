(** Model of fortuna/data/dataset/huggingface_datasets.py: from a dataset to the batches of a
    data loader, for the three kinds of dataset, on top of TextModel.v.

    The tokenizer is a parameter: a function from a text (or a pair of texts) to token ids.
    Simplification: of the keys returned by the tokenizer only the token ids are modelled (and
    the special tokens mask of the masked language model); the other keys are handled row by row
    in the same way, with their own padding value.  Not modelled: the progress bar, the
    caching of Dataset.map, the number of devices (the batch size is the total one). *)
From Coq Require Import List Arith ZArith Bool.
From Verif Require Import Lib TextModel.
Import ListNotations.

(** ---- tokenizer.pad (external) ---- *)
Definition pad_to {A} (n : nat) (p : A) (row : list A) : list A := row ++ repeat p (n - length row).
(** padding to the longest row, or to the next multiple of [m] *)
Definition padded_length (multiple : option nat) (n : nat) : result nat :=
  match multiple with
  | None => Ok n
  | Some 0 => Err ZeroDivisionError
  | Some m => Ok (if n mod m =? 0 then n else (n / m + 1) * m)
  end.
Definition pad_batch {A} (multiple : option nat) (p : A) (rows : list (list A)) : result (list (list A)) :=
  rmap (fun n => map (pad_to n p) rows) (padded_length multiple (max_nat (map (@length A) rows))).
(** jnp.array of a list of rows: rows of different lengths raise *)
Definition stack {A} (rows : list (list A)) : result (list (list A)) :=
  match rows with
  | [] => Ok []
  | r :: rest => if forallb (fun x => length x =? length r) rest then Ok rows else Err ValueError
  end.

(** ---- Dataset.map(batched=True) (external) ---- *)
(** the function is applied to consecutive slices of [m] rows (1000 by default) and the rows it
    returns are concatenated *)
Definition map_batched {X Y} (m : nat) (f : list X -> result (list Y)) (rows : list X) : result (list Y) :=
  bind (strided m (length rows) rows) (fun parts => rmap (@concat Y) (mapM f parts)).

(** ---- the loader, lines 164-194 ---- *)
(** a tokenized dataset: its rows, and the labels if there is such a column.  Lines 186-194: the
    rows and labels at the indices of batch [b], collated; without labels the targets are None *)
Definition batch_at {R C} (collate : nat -> list R -> result C) (rows : list R) (labels : option (list Z)) (bidxs : nat * list nat)
    : result (C * option (list Z)) :=
  bind (gather (snd bidxs) rows) (fun rs =>
  bind (match labels with None => Ok None | Some ls => rmap Some (gather (snd bidxs) ls) end) (fun ls =>
  bind (collate (fst bidxs) rs) (fun c => Ok (c, ls)))).
Definition loader_pass {R C} (collate : nat -> list R -> result C) (batch_size : nat) (shuffle drop_last : bool) (perm : list nat)
    (rows : list R) (labels : option (list Z)) : result (list (C * option (list Z))) :=
  bind (get_batches_idxs (length rows) batch_size shuffle drop_last perm) (fun idxss =>
  mapM (batch_at collate rows labels) (combine (seq 0 (length idxss)) idxss)).
(** lines 89-136 get_data_loader: every pass calls the function anew, with the same key; the
    collator may draw from numpy's global generator, hence its dependence on the pass *)
Definition hf_passes {K R C} (permutation : K -> nat -> list nat) (collate : nat -> nat -> list R -> result C) (batch_size : nat)
    (shuffle drop_last : bool) (rng : K) (rows : list R) (labels : option (list Z)) (k : nat) : list (result (list (C * option (list Z)))) :=
  map (fun i => loader_pass (collate i) batch_size shuffle drop_last (permutation rng (length rows)) rows labels) (seq 0 k).

(** huggingface_loaders.py:70-74 *)
Definition loader_targets {C} (batches : list (C * option (list Z))) : result (list Z) :=
  match batches with
  | [] => Err ValueError
  | _ => rmap (@concat Z) (mapM (fun b => match snd b with Some l => Ok l | None => Err TypeError end) batches)
  end.
(** huggingface_loaders.py:64-68 *)
Definition loader_num_labels {C} (given : option nat) (batches : list (C * option (list Z))) : result nat :=
  match given with
  | Some n => Ok n
  | None => rmap (fun l => length (nodup Z.eq_dec l)) (loader_targets batches)
  end.

(** ---- sequence classification, lines 197-263 ---- *)
Inductive padding := NoPadding | Longest | MaxLength.
(** lines 227-243; the tokenizer truncates at max_length *)
Definition seq_tokenize {X} (tok : nat -> X -> list Z) (pad_id : Z) (padding : padding) (max_length map_size : nat) (texts : list X)
    : result (list (list Z)) :=
  map_batched map_size (fun xs =>
    Ok (map (fun x => match padding with MaxLength => pad_to max_length pad_id (tok max_length x) | _ => tok max_length x end) xs)) texts.
(** lines 256-263, and line 189.  DataCollatorWithPadding renames the label in the same way. *)
Definition seq_collate (pad_id : Z) (padding : padding) (rows : list (list Z)) : result (list (list Z)) :=
  match padding with
  | Longest => bind (pad_batch None pad_id rows) stack
  | _ => stack rows
  end.
Definition seq_loader_pass {X} (tok : nat -> X -> list Z) (pad_id : Z) (padding : padding) (max_length map_size batch_size : nat)
    (shuffle drop_last : bool) (perm : list nat) (texts : list X) (labels : option (list Z)) : result (list (list (list Z) * option (list Z))) :=
  bind (seq_tokenize tok pad_id padding max_length map_size texts) (fun rows =>
  loader_pass (fun _ => seq_collate pad_id padding) batch_size shuffle drop_last perm rows labels).

(** ---- multiple choice, lines 266-352 ---- *)
(** an example: the first sentence, the beginning of the second one, and the choices *)
Definition example (X : Type) : Type := (X * X * list X)%type.
(** lines 307-316: the choices of the examples, from several columns (for a single column it
    contains the lists themselves) *)
Definition choices_of_columns {X} (columns : list (list X)) (n : nat) : result (list (list X)) :=
  mapM (fun i => mapM (fun col => match nth_error col i with Some x => Ok x | None => Err IndexError end) columns) (seq 0 n).
(** lines 302-330 on one slice of the dataset.  [tok limit a b] tokenizes a pair; the call gives
    no limit.  Two lists of texts of different lengths are rejected by the tokenizer.
    [has_target]: whether the target column exists *)
Definition multi_tokenize_batch {X} (tok : option nat -> X -> X -> list Z) (join : X -> X -> X) (num_labels : option nat) (has_target : bool)
    (examples : list (example X)) : result (list (list (list Z))) :=
  match num_labels with
  | None => Err TypeError
  | Some k =>
      let first := concat (map (fun e => repeat (fst (fst e)) k) examples) in
      let second := concat (map (fun e => map (join (snd (fst e))) (snd e)) examples) in
      if negb (length first =? length second) then Err ValueError
      else
        let toks := map (fun p => tok None (fst p) (snd p)) (combine first second) in
        bind (strided k (length toks) toks) (fun groups => if has_target then Ok groups else Err KeyError)
  end.
Definition has_labels (labels : option (list Z)) : bool := match labels with Some _ => true | None => false end.
(** lines 349-352 and data_collator.py:53-76; the padding always goes to the longest sequence *)
Definition multi_collate (multiple : option nat) (pad_id : Z) (groups : list (list (list Z))) : result (list (list (list Z))) :=
  bind (pad_batch multiple pad_id (concat groups)) (fun _ =>
  multiple_choice_collate (fun flat => match pad_batch multiple pad_id flat with Ok r => r | Err _ => [] end) groups).
Definition multi_loader_pass {X} (tok : option nat -> X -> X -> list Z) (join : X -> X -> X) (num_labels : option nat) (multiple : option nat) (pad_id : Z)
    (map_size batch_size : nat) (shuffle drop_last : bool) (perm : list nat) (examples : list (example X)) (labels : option (list Z))
    : result (list (list (list (list Z)) * option (list Z))) :=
  bind (map_batched map_size (multi_tokenize_batch tok join num_labels (has_labels labels)) examples) (fun rows =>
  loader_pass (fun _ => multi_collate multiple pad_id) batch_size shuffle drop_last perm rows labels).

(** ---- masked language model, lines 355-453 ---- *)
(** lines 409-432 for the token ids and the special tokens mask, on one slice of the dataset *)
Definition mlm_tokenize_batch {X} (tok : X -> list Z) (special : X -> list bool) (max_length : nat) (texts : list X) : result (list (list Z * list bool)) :=
  bind (mlm_chunks max_length (map tok texts)) (fun ids =>
  rmap (fun sps => combine ids sps) (mlm_chunks max_length (map special texts))).
(** lines 451-453 and data_collator.py:107-139: [draws r p] are the random numbers of the call for
    row [r] and position [p]; padding counts as special; a row is a list of (input, label) *)
Definition mlm_collate (mlm : bool) (mask_id : option Z) (pad_id : Z) (multiple : option nat) (draws : nat -> nat -> draw) (rows : list (list Z * list bool))
    : result (list (list (Z * Z))) :=
  if mlm && match mask_id with None => true | _ => false end then Err ValueError
  else
    bind (pad_batch multiple pad_id (map fst rows)) (fun ids =>
    bind (pad_batch multiple true (map snd rows)) (fun sps =>
    mapM (fun x => let '(r, (row, sp)) := x in
                   collate_lm mlm (match mask_id with Some m => m | None => 0%Z end) (Some pad_id) row (Some sp) (map (draws r) (seq 0 (length row))))
         (combine (seq 0 (length ids)) (combine ids sps)))).
(** the labels come from the collator: the dataset has no label column *)
Definition mlm_loader_pass {X} (tok : X -> list Z) (special : X -> list bool) (mlm : bool) (mask_id : option Z) (pad_id : Z) (multiple : option nat)
    (draws : nat -> nat -> nat -> draw) (max_length map_size batch_size : nat) (shuffle drop_last : bool) (perm : nat -> list nat) (texts : list X)
    : result (list (list (list (Z * Z)))) :=
  bind (map_batched map_size (mlm_tokenize_batch tok special max_length) texts) (fun rows =>
  rmap (map fst) (loader_pass (fun b => mlm_collate mlm mask_id pad_id multiple (draws b)) batch_size shuffle drop_last (perm (length rows)) rows None)).
