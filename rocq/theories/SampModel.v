(** Model of the samples of loaders of inputs and of targets:
    fortuna/data/loader/array_loaders.py:349-370 (InputsLoader.sample) and 508-529
    (TargetsLoader.sample); LoaderModel.v models DataLoader.sample.

    As there, [draw i] is the mask of the i-th call of rng.choice; the generator is made from the
    seed when iteration starts, so the masks are the same for the same seed and batch sizes. *)
From Coq Require Import List Arith.
From Verif Require Import Lib LoaderModel.
Import ListNotations.

(** the [for] loop: yielded batches, the count and the number of draws *)
Fixpoint sample1_pass {X} (draw : nat -> list bool) (n count i : nat) (l : list (list X)) : list (list X) * nat * nat :=
  match l with
  | [] => ([], count, i)
  | xs :: r =>
      if count =? n then ([], count, i)
      else
        let xs1 := mask_select (draw i) xs in
        let xs2 := if n <? count + length xs1 then firstn (n - count) xs1 else xs1 in
        let '(rest, c, j) := sample1_pass draw n (count + length xs2) (S i) r in
        ((if 0 <? length xs2 then xs2 :: rest else rest), c, j)
  end.
(** the [while True] loop: [fuel] passes, [None] when still running *)
Fixpoint sample1_loop {X} (fuel : nat) (draw : nat -> list bool) (n count i : nat) (l : list (list X)) : option (list (list X)) :=
  match fuel with
  | 0 => None
  | S f =>
      let '(out, c, j) := sample1_pass draw n count i l in
      if c =? n then Some out else option_map (app out) (sample1_loop f draw n c j l)
  end.
Definition sample1 {X} (fuel : nat) (draw : nat -> list bool) (n : nat) (l : list (list X)) := sample1_loop fuel draw n 0 0 l.
