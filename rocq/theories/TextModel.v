(** Models of the text/dataset side of data loading:
    fortuna/data/dataset/huggingface_datasets.py, data_collator.py,
    fortuna/data/loader/huggingface_loaders.py and the data preparation of
    fortuna/hallucination/base.py. *)
From Coq Require Import List Arith ZArith Lia Bool.
From Verif Require Import Lib.
Import ListNotations.

(** slices [l[s : s+step]] for [s] in [range(0, stop, step)]; a zero step raises *)
Definition strided {A} (step stop : nat) (l : list A) : result (list (list A)) :=
  match step with
  | 0 => Err ValueError
  | _ => Ok (map (fun s => slice s (s + step) l) (range 0 stop step))
  end.

(** huggingface_datasets.py:142-162 _get_batches_idxs.  [perm] is what
    jax.random.permutation returns for the given key. *)
Definition get_batches_idxs (n batch_size : nat) (shuffle drop_last : bool) (perm : list nat)
  : result (list (list nat)) :=
  let idxs := if shuffle then perm else seq 0 n in
  match batch_size with
  | 0 => if drop_last then Err ZeroDivisionError else Err ValueError
  | _ =>
    let idxs := if drop_last then firstn (n / batch_size * batch_size) idxs else idxs in
    strided batch_size (length idxs) idxs
  end.

(** huggingface_loaders.py:47-52: the size reported by a loader built by
    get_data_loader (huggingface_datasets.py:132-136, num_inputs=len(dataset));
    [counted] is the number of rows an actual pass yields. *)
Definition hf_size (num_inputs : option nat) (counted : nat) : nat :=
  match num_inputs with
  | Some (S k) => S k
  | _ => counted
  end.

(** huggingface_datasets.py:409-432 _tokenize_fn of the masked-LM data set, for
    one of the keys returned by the tokenizer: [sum(tokens, [])], then chunks of
    [max_length]. *)
Definition mlm_chunks {A} (max_length : nat) (tokens : list (list A)) : result (list (list A)) :=
  let cat := concat tokens in
  match max_length with
  | 0 => Err ZeroDivisionError
  | _ => strided max_length (length cat / max_length * max_length) cat
  end.

(** data_collator.py:141-178 mask_tokens on one flattened array.  The draws:
    [sel] = outcome of binomial(1, p) where p was not zeroed, [rep] (0.8) and
    [rnd] (0.5) the two other Bernoulli arrays, [words] the random words.
    binomial(1, 0.0) is always 0, hence [sel && negb special]. *)
Record draw := mk_draw { d_sel : bool; d_rep : bool; d_rnd : bool; d_word : Z }.
Definition ignore_index : Z := (-100)%Z.
Definition mask_token_at (mask_id : Z) (tok : Z) (special : bool) (d : draw) : Z * Z :=
  let masked := if special then false else d_sel d in
  let label := if negb masked then ignore_index else tok in
  let replaced := d_rep d && masked in
  let inp := if replaced then mask_id else tok in
  let random := d_rnd d && (masked && negb replaced) in
  let inp := if random then d_word d else inp in
  (inp, label).
Fixpoint mask_tokens (mask_id : Z) (inputs : list Z) (special : list bool) (ds : list draw)
  : list (Z * Z) :=
  match inputs, special, ds with
  | t :: ts, s :: ss, d :: ds' => mask_token_at mask_id t s d :: mask_tokens mask_id ts ss ds'
  | _, _, _ => []
  end.
(** data_collator.py:124-139 __call__ after padding *)
Definition collate_lm (mlm : bool) (mask_id : Z) (pad_id : option Z) (inputs : list Z)
    (special : option (list bool)) (ds : list draw) : result (list (Z * Z)) :=
  if mlm then
    match special with
    | None => Err AttributeError (* None.astype, line 151 *)
    | Some sp => Ok (mask_tokens mask_id inputs sp ds)
    end
  else
    Ok (map (fun t => (t, match pad_id with
                          | Some p => if Z.eqb t p then ignore_index else t
                          | None => t end)) inputs).

(** data_collator.py:53-76: flattening the choices of each example, padding
    ([pad], a function of the flattened list returning one row per element) and
    reshaping to (batch_size, num_choices, -1). *)
Definition multiple_choice_collate {F G} (pad : list F -> list G) (features : list (list F))
  : result (list (list G)) :=
  match features with
  | [] => Err IndexError
  | f0 :: _ =>
    let num_choices := length f0 in
    if existsb (fun f => length f <? num_choices) features then Err IndexError
    else
      let flat := concat (map (firstn num_choices) features) in
      let padded := pad flat in
      Ok (map (fun i => slice (i * num_choices) (S i * num_choices) padded)
              (seq 0 (length features)))
  end.

(** hallucination/base.py:265-268 _batch *)
Definition hbatch {A B} (texts : list A) (contexts : list B) (batch_size : nat)
  : result (list (list A * list B)) :=
  match batch_size with
  | 0 => Err ValueError
  | _ => Ok (map (fun i => (slice i (i + batch_size) texts, slice i (i + batch_size) contexts))
                 (range 0 (length texts) batch_size))
  end.

(** hallucination/base.py:294-307 _balance_data.  [choice l k] is
    [rng.choice(l, k, replace=True)] for non-empty [l] (numpy raises when [l] is
    empty and k > 0).  The three lists are extended in place: the returned
    lists are the caller's lists. *)
Definition indices_of (y : nat) (targets : list nat) : list nat :=
  map fst (filter (fun p => snd p =? y) (combine (seq 0 (length targets)) targets)).
Fixpoint append_rows {A} (idx : list nat) (l : list A) : result (list A) :=
  match idx with
  | [] => Ok l
  | i :: r => match nth_error l i with
              | Some x => append_rows r (l ++ [x])
              | None => Err IndexError
              end
  end.
Definition balance_data {A B} (choice : list nat -> nat -> list nat)
    (texts : list A) (contexts : list B) (targets : list nat)
  : result (list A * list B * list nat) :=
  let idx0 := indices_of 0 targets in
  let idx1 := indices_of 1 targets in
  let k := Nat.max (length idx1 - length idx0) (length idx0 - length idx1) in
  let pool := if length idx0 <? length idx1 then idx0 else idx1 in
  match pool, k with
  | [], S _ => Err ValueError
  | _, _ =>
    let idx := choice pool k in
    bind (append_rows idx texts) (fun t =>
    bind (append_rows idx contexts) (fun c =>
    bind (append_rows idx targets) (fun y => Ok (t, c, y))))
  end.
