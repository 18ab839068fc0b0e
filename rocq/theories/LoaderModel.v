(** Model of fortuna/data/loader/{utils,array_loaders,base}.py.

    A loader that can be iterated again is the list of batches one pass yields:
    every [_inner]/[fun] generator of the code is a function of immutable data,
    so each pass re-runs it from its initial local state (the local variables of
    the generator are the accumulators of the recursive functions below).
    Arrays are lists of rows and rows are opaque ([X], [Y]). *)
From Coq Require Import List Arith ZArith Lia Bool.
From Verif Require Import Lib.
Import ListNotations.

Notation batch X Y := (list X * list Y)%type.

(** numpy [np.split(data, idxs, axis=0)] with ascending cut points: pieces
    [data[0:i1]], [data[i1:i2]], ..., [data[ik:]]. *)
Fixpoint np_split_from {A} (prev : nat) (idxs : list nat) (data : list A) : list (list A) :=
  match idxs with
  | [] => [skipn prev data]
  | i :: r => slice prev i data :: np_split_from i r data
  end.
Definition np_split {A} (data : list A) (idxs : list nat) : list (list A) :=
  np_split_from 0 idxs data.

(** numpy [np.arange(b, n, b)]; a zero step raises. *)
Definition arange (start stop step : nat) : result (list nat) :=
  match step with 0 => Err ZeroDivisionError | _ => Ok (range start stop step) end.

(** loader/utils.py:218-236, class PrefetchedGenerator.  The wrapped generator
    is the list of items it has still to yield; [__next__] on an exhausted one
    raises StopIteration. *)
Record prefetched (A : Type) := mk_prefetched { pf_batch : A; pf_gen : list A; pf_ready : bool }.
Arguments mk_prefetched {A} _ _ _.
Arguments pf_batch {A} _.
Arguments pf_gen {A} _.
Arguments pf_ready {A} _.

(** utils.py:219-222 *)
Definition pf_init {A} (gen : list A) : result (prefetched A) :=
  match gen with
  | [] => Err StopIteration
  | x :: r => Ok (mk_prefetched x r true)
  end.

(** utils.py:233-236 *)
Definition pf_prefetch {A} (s : prefetched A) : result (prefetched A) :=
  if pf_ready s then Ok s
  else match pf_gen s with
       | [] => Err StopIteration
       | x :: r => Ok (mk_prefetched x r true)
       end.

(** utils.py:227-231 *)
Definition pf_next {A} (s : prefetched A) : result (A * prefetched A) :=
  bind (if pf_ready s then Ok s else pf_prefetch s)
       (fun s' => Ok (pf_batch s', mk_prefetched (pf_batch s') (pf_gen s') false)).

(** [yield from PrefetchedGenerator(gen)] (utils.py:98, 133): call [__next__]
    until StopIteration.  [fuel] bounds the number of calls; [None] means the
    iteration has not ended within the fuel.  StopIteration raised by the
    constructor (empty generator) surfaces as RuntimeError (PEP 479). *)
Fixpoint pf_drain {A} (fuel : nat) (s : prefetched A) : option (list A) :=
  match fuel with
  | 0 => None
  | S f => match pf_next s with
           | Ok (x, s') => option_map (cons x) (pf_drain f s')
           | Err _ => Some []
           end
  end.
Definition pf_pass {A} (fuel : nat) (gen : list A) : result (option (list A)) :=
  match pf_init gen with
  | Ok s => Ok (pf_drain fuel s)
  | Err _ => Err RuntimeError
  end.

(** utils.py:96-98: [make_gen()] prefetched or not.  The fuel given, one call
    more than there are items, is shown sufficient in LoaderProofs. *)
Definition maybe_prefetch {A} (prefetch : bool) (gen : list A) : result (list A) :=
  if prefetch then
    bind (pf_pass (S (length gen)) gen)
         (fun o => match o with Some l => Ok l | None => Err RuntimeError end)
  else Ok gen.

(** utils.py:72-100 IterableData.from_array_data.  [perm] is what
    [rng.choice(n, n, replace=False)] returns for the given seed: a function of
    the seed and n only, hence the same on every pass. *)
Definition from_array_data {A} (data : list A) (batch_size : option nat)
    (shuffle prefetch : bool) (perm : list nat) : result (list (list A)) :=
  match batch_size with
  | None => Ok [data]
  | Some b =>
      bind (if shuffle then gather perm data else Ok data) (fun d =>
      bind (arange b (length data) b) (fun idxs =>
      maybe_prefetch prefetch (np_split d idxs)))
  end.

(** utils.py:102-135 IterableData.from_batch_array_data, via
    DataLoader.from_array_data (array_loaders.py:30-62). *)
Definition from_batch_array_data {X Y} (xs : list X) (ys : list Y) (batch_size : option nat)
    (shuffle prefetch : bool) (perm : list nat) : result (list (batch X Y)) :=
  match batch_size with
  | None => Ok [(xs, ys)]
  | Some b =>
      bind (if shuffle then gather perm xs else Ok xs) (fun dx =>
      bind (arange b (length xs) b) (fun xi =>
      bind (if shuffle then gather perm ys else Ok ys) (fun dy =>
      bind (arange b (length ys) b) (fun yi =>
      maybe_prefetch prefetch (combine (np_split dx xi) (np_split dy yi))))))
  end.

(** utils.py:137-151, array_loaders.py:64-84 *)
Definition to_inputs_loader {X Y} (l : list (batch X Y)) : list (list X) := map fst l.
Definition to_targets_loader {X Y} (l : list (batch X Y)) : list (list Y) := map snd l.

(** [np.concatenate(parts, 0)]: raises ValueError on an empty list of arrays. *)
Definition np_concatenate {A} (parts : list (list A)) : result (list A) :=
  match parts with [] => Err ValueError | _ => Ok (concat parts) end.

(** array_loaders.py:86-99 to_array_data *)
Definition to_array_data {X Y} (l : list (batch X Y)) : result (list X * list Y) :=
  bind (np_concatenate (map fst l)) (fun xs =>
  bind (np_concatenate (map snd l)) (fun ys => Ok (xs, ys))).
(** array_loaders.py:101-113 and 293-305 *)
Definition to_array_inputs {X Y} (l : list (batch X Y)) : result (list X) :=
  np_concatenate (map fst l).
(** array_loaders.py:115-127 and 452-464 *)
Definition to_array_targets {X Y} (l : list (batch X Y)) : result (list Y) :=
  np_concatenate (map snd l).

(** base.py:39-54, 280-295, 421-434 *)
Definition size {X Y} (l : list (batch X Y)) : nat := sum_nat (map (fun b => length (fst b)) l).
Definition size1 {A} (l : list (list A)) : nat := sum_nat (map (@length A) l).
(** base.py:70-79 *)
Definition num_batches {B} (l : list B) : nat := length l.

(** array_loaders.py:145-151 DataLoader.chop; divisor 0 raises on the first batch.
    [inputs[:-reminder]] uses the remainder computed from the targets. *)
Fixpoint chop {X Y} (d : nat) (l : list (batch X Y)) : result (list (batch X Y)) :=
  match l with
  | [] => Ok []
  | (xs, ys) :: r =>
      match d with
      | 0 => Err ZeroDivisionError
      | _ =>
        let reminder := length ys mod d in
        bind (chop d r) (fun rest =>
        if reminder =? 0 then Ok ((xs, ys) :: rest)
        else if d <? length ys
             then Ok ((drop_last reminder xs, drop_last reminder ys) :: rest)
             else Ok rest)
      end
  end.

(** array_loaders.py:323-329 InputsLoader.chop, 482-488 TargetsLoader.chop *)
Fixpoint chop1 {A} (d : nat) (l : list (list A)) : result (list (list A)) :=
  match l with
  | [] => Ok []
  | xs :: r =>
      match d with
      | 0 => Err ZeroDivisionError
      | _ =>
        let reminder := length xs mod d in
        bind (chop1 d r) (fun rest =>
        if reminder =? 0 then Ok (xs :: rest)
        else if d <? length xs then Ok (drop_last reminder xs :: rest)
             else Ok rest)
      end
  end.

(** array_loaders.py:171-185 split, first loader *)
Fixpoint split_first {X Y} (n count : nat) (l : list (batch X Y)) : list (batch X Y) :=
  match l with
  | [] => []
  | (xs, ys) :: r =>
      if count =? n then []
      else if count + length xs <=? n
           then (xs, ys) :: split_first n (count + length xs) r
           else (firstn (n - count) xs, firstn (n - count) ys) :: split_first n n r
  end.

(** array_loaders.py:187-201 split, second loader *)
Fixpoint split_second {X Y} (n count : nat) (l : list (batch X Y)) : list (batch X Y) :=
  match l with
  | [] => []
  | (xs, ys) :: r =>
      if n <? count then (xs, ys) :: split_second n count r
      else if (count <=? n) && (n <? count + length xs)
           then (skipn (n - count) xs, skipn (n - count) ys)
                  :: split_second n (count + length xs) r
           else split_second n (count + length xs) r
  end.
(** array_loaders.py:155-205 *)
Definition split {X Y} (n : nat) (l : list (batch X Y)) : list (batch X Y) * list (batch X Y) :=
  (split_first n 0 l, split_second n 0 l).

(** array_loaders.py:387-411 InputsLoader.split and 546-570 TargetsLoader.split *)
Fixpoint split_first1 {A} (n count : nat) (l : list (list A)) : list (list A) :=
  match l with
  | [] => []
  | xs :: r =>
      if count =? n then []
      else if count + length xs <=? n
           then xs :: split_first1 n (count + length xs) r
           else firstn (n - count) xs :: split_first1 n n r
  end.
Fixpoint split_second1 {A} (n count : nat) (l : list (list A)) : list (list A) :=
  match l with
  | [] => []
  | xs :: r =>
      if n <? count then xs :: split_second1 n count r
      else if (count <=? n) && (n <? count + length xs)
           then skipn (n - count) xs :: split_second1 n (count + length xs) r
           else split_second1 n (count + length xs) r
  end.
Definition split1 {A} (n : nat) (l : list (list A)) : list (list A) * list (list A) :=
  (split_first1 n 0 l, split_second1 n 0 l).

(** array_loaders.py:229-241: one pass of the [for] loop inside [sample].
    [draw i] is the boolean mask returned by the i-th call of
    [rng.choice(2, k)] (of length k in the code; here truncated/short masks are
    simply what mask indexing gives).  Returns yielded batches, the count and
    the number of draws made so far. *)
Fixpoint sample_pass {X Y} (draw : nat -> list bool) (n count i : nat) (l : list (batch X Y))
  : list (batch X Y) * nat * nat :=
  match l with
  | [] => ([], count, i)
  | (xs, ys) :: r =>
      if count =? n then ([], count, i)
      else
        let m := draw i in
        let xs1 := mask_select m xs in
        let ys1 := mask_select m ys in
        let xs2 := if n <? count + length xs1 then firstn (n - count) xs1 else xs1 in
        let ys2 := if n <? count + length xs1 then firstn (n - count) ys1 else ys1 in
        let '(rest, c, j) := sample_pass draw n (count + length xs2) (S i) r in
        ((if 0 <? length xs2 then (xs2, ys2) :: rest else rest), c, j)
  end.
(** array_loaders.py:224-246: [while True] around the passes; [fuel] passes,
    [None] when the loop is still running. *)
Fixpoint sample_loop {X Y} (fuel : nat) (draw : nat -> list bool) (n count i : nat)
    (l : list (batch X Y)) : option (list (batch X Y)) :=
  match fuel with
  | 0 => None
  | S f =>
      let '(out, c, j) := sample_pass draw n count i l in
      if c =? n then Some out
      else option_map (app out) (sample_loop f draw n c j l)
  end.
Definition sample {X Y} (fuel : nat) (draw : nat -> list bool) (n : nat) (l : list (batch X Y)) :=
  sample_loop fuel draw n 0 0 l.

(** itertools.zip_longest over the loaders: round [r] has [None] for exhausted loaders. *)
Definition zip_longest {A} (ls : list (list A)) : list (list (option A)) :=
  map (fun r => map (fun l => nth_error l r) ls)
      (seq 0 (max_nat (map (@length A) ls))).

Definition opt_list {A} (o : option A) : list A := match o with Some x => [x] | None => [] end.

(** utils.py:159-167, one round of how="interpose": targets are zipped with
    (hence truncated to) the given [targets]; [target * np.ones(k)] is
    [repeat target k]. *)
Definition interpose_round {X T} (targets : list T) (all_inputs : list (option (list X)))
  : result (batch X T) :=
  let ts := flat_map (fun p => match fst p with
                               | Some xs => [repeat (snd p) (length xs)]
                               | None => [] end) (combine all_inputs targets) in
  let xs := flat_map opt_list all_inputs in
  bind (np_concatenate xs) (fun x => bind (np_concatenate ts) (fun t => Ok (x, t))).

Inductive how := Interpose | Concatenate | OtherHow.

(** utils.py:153-181 inputs_loaders_to_batch_iterable *)
Definition inputs_loaders_to_batches {X T} (ls : list (list (list X))) (targets : list T) (h : how)
  : result (list (batch X T)) :=
  match h with
  | Interpose => mapM (interpose_round targets) (zip_longest ls)
  | Concatenate =>
      Ok (flat_map (fun p => map (fun xs => (xs, repeat (snd p) (length xs))) (fst p))
                   (combine ls targets))
  | OtherHow => Err ValueError
  end.

(** Object identity of the status during one pass of a transformed loader:
    [Stored] means that the local variable [_status] is the very object kept by
    the loader, [Own s] that it is another object with content [s].
    utils.py:186 and 209 start with [Own] (deepcopy). *)
Inductive status_ref (S : Type) := Stored | Own (s : S).
Arguments Stored {S}.
Arguments Own {S} _.
Definition deref {S} (stored : S) (r : status_ref S) : S :=
  match r with Stored => stored | Own s => s end.
(** in-place mutation of the object a reference denotes *)
Definition mutate {S} (stored : S) (r : status_ref S) (s' : S) : S * status_ref S :=
  match r with Stored => (s', Stored) | Own _ => (stored, Own s') end.

(** What a user transformation may do with the status it receives: mutate it in
    place to [t_mut] and return either that same object ([t_ret = None]) or a
    new one. *)
Record transform_result (O S : Type) := mk_tr { t_out : O; t_mut : S; t_ret : option S }.
Arguments mk_tr {O S} _ _ _.
Arguments t_out {O S} _.
Arguments t_mut {O S} _.
Arguments t_ret {O S} _.

(** [inputs, targets, _status = transform_fn(inputs, targets, _status)] (utils.py:188, 211) *)
Definition step_status {O S} (stored : S) (r : status_ref S) (res : transform_result O S)
  : S * status_ref S :=
  let '(stored', r') := mutate stored r (t_mut res) in
  match t_ret res with None => (stored', r') | Some s => (stored', Own s) end.

(** utils.py:187-200, the loop of transform_data_loader.  Result: batches
    yielded, the exception that ended the pass if any, and the content of the
    status object kept by the loader afterwards. *)
Fixpoint transform_loop {X Y X' Y' S}
    (f : list X -> list Y -> S -> transform_result (option (list X') * option (list Y')) S)
    (stored : S) (r : status_ref S) (l : list (batch X Y)) : list (batch X' Y') * option error * S :=
  match l with
  | [] => ([], None, stored)
  | (xs, ys) :: rest =>
      let res := f xs ys (deref stored r) in
      let '(stored', r') := step_status stored r res in
      match t_out res with
      | (Some xs', Some ys') =>
          if (0 <? length xs') && (0 <? length ys') then
            if negb (length xs' =? length ys') then ([], Some ValueError, stored')
            else let '(out, e, s) := transform_loop f stored' r' rest in ((xs', ys') :: out, e, s)
          else transform_loop f stored' r' rest
      | _ => transform_loop f stored' r' rest
      end
  end.
(** utils.py:183-202 transform_data_loader, one pass: [_status = deepcopy(status)]. *)
Definition transform_pass {X Y X' Y' S}
    (f : list X -> list Y -> S -> transform_result (option (list X') * option (list Y')) S)
    (stored : S) (l : list (batch X Y)) :=
  transform_loop f stored (Own stored) l.
(** [k] successive passes over the same transformed loader *)
Fixpoint transform_passes {X Y X' Y' S}
    (f : list X -> list Y -> S -> transform_result (option (list X') * option (list Y')) S)
    (k : nat) (stored : S) (l : list (batch X Y)) : list (list (batch X' Y') * option error) :=
  match k with
  | 0 => []
  | S k' => let '(out, e, stored') := transform_pass f stored l in
            (out, e) :: transform_passes f k' stored' l
  end.

(** utils.py:204-215 transform_inputs_or_targets_loader *)
Fixpoint transform1_loop {A B S} (f : list A -> S -> transform_result (option (list B)) S)
    (stored : S) (r : status_ref S) (l : list (list A)) : list (list B) * S :=
  match l with
  | [] => ([], stored)
  | xs :: rest =>
      let res := f xs (deref stored r) in
      let '(stored', r') := step_status stored r res in
      let '(out, s) := transform1_loop f stored' r' rest in
      match t_out res with
      | Some xs' => if 0 <? length xs' then (xs' :: out, s) else (out, s)
      | None => (out, s)
      end
  end.
Definition transform1_pass {A B S} (f : list A -> S -> transform_result (option (list B)) S)
    (stored : S) (l : list (list A)) := transform1_loop f stored (Own stored) l.
Fixpoint transform1_passes {A B S} (f : list A -> S -> transform_result (option (list B)) S)
    (k : nat) (stored : S) (l : list (list A)) : list (list (list B)) :=
  match k with
  | 0 => []
  | S k' => let '(out, stored') := transform1_pass f stored l in
            out :: transform1_passes f k' stored' l
  end.

(** base.py:535-553 DeviceDimensionAugmentedLoader._reshape_inputs: reshape
    [(n, ...)] to [(n_devices, n/n_devices, ...)] in row-major order. *)
Definition reshape_devices {A} (d : nat) (rows : list A) : result (list (list A)) :=
  if negb (length rows mod d =? 0) then Err ValueError
  else Ok (map (fun i => slice (i * (length rows / d)) (S i * (length rows / d)) rows) (seq 0 d)).

(** base.py:556-565 ConcatenatedLoader *)
Definition concatenated_loader {B} (ls : list (list B)) : list B := concat ls.

(** likelihood/base.py:794-796 _unshard_array: merge the two leading axes. *)
Definition unshard {A} (l : list (list A)) : list A := concat l.

(** likelihood/base.py:798-842 and predictive/base.py:952-997
    _loop_fun_through_{inputs,data}_loader: [fun] maps a batch to one result
    per row; with [distribute] each device gets one shard. *)
Definition loop_fun {A B} (distribute : bool) (d : nat) (f : list A -> list B)
    (loader : list (list A)) : result (list B) :=
  if distribute then
    bind (mapM (fun b => rmap (fun shards => unshard (map f shards)) (reshape_devices d b)) loader)
         np_concatenate
  else np_concatenate (map f loader).

(** axis swap of a matrix given as its list of [rows], with known number of
    columns [w] (numpy knows the shape even without rows). *)
Definition transpose {A} (w : nat) (m : list (list A)) : list (list A) :=
  map (fun j => flat_map (fun row => opt_list (nth_error row j)) m) (seq 0 w).

(** predictive/base.py:946-950 _unshard_ensemble_arrays on an array of shape
    (d, s, m, ...): swapaxes(1,2), merge leading axes, swapaxes(0,1); gives
    (s, d*m, ...). *)
Definition unshard_ensemble {A} (s m : nat) (arr : list (list (list A))) : list (list A) :=
  transpose s (concat (map (transpose m) arr)).

(** predictive/base.py:999-1022: per-batch ensembles (s, m) concatenated on axis 1;
    jnp.concatenate of no arrays raises ValueError. *)
Definition concat_axis1 {A} (s : nat) (parts : list (list (list A))) : result (list (list A)) :=
  match parts with
  | [] => Err ValueError
  | _ => Ok (map (fun j => flat_map (fun p => match nth_error p j with Some r => r | None => [] end) parts)
                 (seq 0 s))
  end.
Definition loop_ensemble {A B} (distribute : bool) (d s : nat) (f : list A -> list (list B))
    (loader : list (list A)) : result (list (list B)) :=
  if distribute then
    bind (mapM (fun b => rmap (fun shards => unshard_ensemble s (length b / d) (map f shards))
                              (reshape_devices d b)) loader)
         (concat_axis1 s)
  else concat_axis1 s (map f loader).

(** predictive/base.py:364-374 Predictive.sample with distribute=True: uses
    _unshard_array on the (d, s, m, ...) array, then concatenates on axis 1. *)
Definition sample_distributed {A B} (d s : nat) (f : list A -> list (list B))
    (loader : list (list A)) : result (list (list B)) :=
  bind (mapM (fun b => rmap (fun shards => unshard (map f shards)) (reshape_devices d b)) loader)
       (concat_axis1 (d * s)).
