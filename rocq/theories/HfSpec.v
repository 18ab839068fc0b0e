(** Vocabulary of the statements about the text data loaders. *)
From Coq Require Import List Arith ZArith Bool.
From Verif Require Import Lib.
Import ListNotations.

(** the order in which a pass visits the rows *)
Definition pass_order (n batch_size : nat) (shuffle drop_last : bool) (perm : list nat) : list nat :=
  let l := if shuffle then perm else seq 0 n in
  if drop_last then firstn (n / batch_size * batch_size) l else l.

(** [sel] is [l] at the given positions *)
Definition selects {A} (idxs : list nat) (l sel : list A) : Prop :=
  Forall2 (fun i x => nth_error l i = Some x) idxs sel.

(** the batches visit the examples in the given order, in batches of at most [batch_size], each
    consisting of inputs that are [good] for its examples and of the labels of these examples *)
Definition delivers {X C} (good : list X -> C -> Prop) (examples : list X) (labels : option (list Z)) (batch_size : nat) (order : list nat)
    (batches : list (C * option (list Z))) : Prop :=
  exists idxss, concat idxss = order /\ Forall (fun idxs => 1 <= length idxs <= batch_size) idxss /\
    Forall2 (fun idxs b =>
      (exists xs, selects idxs examples xs /\ good xs (fst b)) /\
      match labels with
      | None => snd b = None
      | Some ls => exists ys, selects idxs ls ys /\ snd b = Some ys
      end) idxss batches.

(** [row] is [tokens] followed by padding, of total length [w] *)
Definition padded_row (pad : Z) (w : nat) (tokens row : list Z) : Prop :=
  length row = w /\ exists k, row = tokens ++ repeat pad k.

(** rows of one width for a batch of texts *)
Definition padded_rows {X} (tokens : X -> list Z) (pad : Z) (w : nat) (xs : list X) (rows : list (list Z)) : Prop :=
  Forall2 (fun x row => padded_row pad w (tokens x) row) xs rows.
Definition longest {X} (tokens : X -> list Z) (xs : list X) (w : nat) : Prop :=
  (forall x, In x xs -> length (tokens x) <= w) /\ exists x, In x xs /\ length (tokens x) = w.

(** [w] is the smallest multiple not below [n] *)
Definition rounds_up (multiple : option nat) (n w : nat) : Prop :=
  match multiple with
  | None => w = n
  | Some m => n <= w < n + m /\ exists q, w = q * m
  end.

(** what a row of (input, label) says about the tokens before masking *)
Definition original_token (x : Z * Z) : Z := if Z.eqb (snd x) (-100) then fst x else snd x.

(** multiple choice: an example is the first sentence, the beginning of the second one, and the
    choices; the pairs of sentences to be tokenized *)
Definition sentence_pairs {X} (join : X -> X -> X) (examples : list (X * X * list X)) : list (X * X) :=
  concat (map (fun e => map (fun c => (fst (fst e), join (snd (fst e)) c)) (snd e)) examples).
(** one padded row per choice *)
Definition choice_rows {X} (tokens : X -> X -> list Z) (join : X -> X -> X) (pad : Z) (w : nat) (e : X * X * list X) (rows : list (list Z)) : Prop :=
  padded_rows (fun c => tokens (fst (fst e)) (join (snd (fst e)) c)) pad w (snd e) rows.

(** masked language model: chunks of [m] tokens, with their special flags, cut from the
    concatenation of the texts of each part of the dataset *)
Definition cut_into {X} (m : nat) (tokens : X -> list (Z * bool)) (part : list X) (chunks : list (list (Z * bool))) : Prop :=
  exists tail, concat chunks ++ tail = concat (map tokens part) /\ Forall (fun c => length c = m) chunks /\ length tail < m.
Definition cut_by_parts {X} (m part_size : nat) (tokens : X -> list (Z * bool)) (texts : list X) (chunks : list (list (Z * bool))) : Prop :=
  exists parts css, concat parts = texts /\ Forall (fun p => 1 <= length p <= part_size) parts /\
    Forall2 (cut_into m tokens) parts css /\ chunks = concat css.
(** a masked row: the original tokens can be read off, special tokens and padding are unchanged
    and have no label *)
Definition masked_row (pad : Z) (w : nat) (chunk : list (Z * bool)) (row : list (Z * Z)) : Prop :=
  length row = w /\
  map original_token row = map fst chunk ++ repeat pad (w - length chunk) /\
  (forall i x, nth_error row i = Some x -> (forall t, nth_error chunk i <> Some (t, false)) -> snd x = (-100)%Z).
(** a row for causal language modelling *)
Definition causal_row (pad : Z) (w : nat) (chunk : list (Z * bool)) (row : list (Z * Z)) : Prop :=
  length row = w /\ map fst row = map fst chunk ++ repeat pad (w - length chunk) /\
  Forall (fun x => snd x = if Z.eqb (fst x) pad then (-100)%Z else fst x) row.
