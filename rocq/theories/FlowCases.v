(** Toy network, flow and optimizer for the examples of FlowProps.v: two parameters w and c, outputs w*x + c,
    squared error, gradient descent with rate 1/10, exp(s) replaced by 1 + s, normal numbers by 1, -1, 1, ... *)
From Coq Require Import List Arith ZArith QArith Bool String.
From Verif Require Import Lib NestedModel LapModel FlatModel QuantModel TrainModel DescModel DescCases FlowModel.
Import ListNotations.
Open Scope list_scope.

Definition w_init : list (string * tree (list Q)) := [("model"%string, Dict [("w"%string, Leaf [1%Q]); ("c"%string, Leaf [2%Q])])].
Definition w_ex (s : Q) : Q := (1 + s)%Q.
Definition w_split (k : nat) : nat * nat := (2 * k, 2 * k + 1)%nat.
(** vector i of the numbers of key k: entries of alternating sign *)
Definition w_normal (k n d : nat) : list (list Q) :=
  map (fun i => map (fun j => if Nat.even (i + j) then 1%Q else (-1)%Q) (seq 0 d)) (seq 0 n).
Definition w_net (p : tree (list Q)) (_ : option nat) (train : bool) (m : option nat) (x : Q) : Q * nat :=
  (match ravel p with [c; w] => (w * x + c)%Q | _ => 0%Q end, match m with Some n => if train then S n else n | None => 0%nat end).
(** central differences in every entry *)
Definition bump (l : list Q) (i : nat) (h : Q) : list Q := map (fun ja => if Nat.eqb (fst ja) i then (snd ja + h)%Q else snd ja) (combine (seq 0 (List.length l)) l).
Definition w_diff (f : flow -> Q) (p : flow) : flow :=
  {| fl_mean := map (fun i => Qred ((f {| fl_mean := bump (fl_mean p) i 1; fl_log_std := fl_log_std p |} - f {| fl_mean := bump (fl_mean p) i (-1); fl_log_std := fl_log_std p |}) / 2)%Q) (seq 0 (List.length (fl_mean p)));
     fl_log_std := map (fun i => Qred ((f {| fl_mean := fl_mean p; fl_log_std := bump (fl_log_std p) i 1 |} - f {| fl_mean := fl_mean p; fl_log_std := bump (fl_log_std p) i (-1) |}) / 2)%Q) (seq 0 (List.length (fl_log_std p))) |}.
Definition down (g p : list Q) : list Q := map (fun ga => Qred (snd ga - fst ga / 10)%Q) (combine g p).
Definition w_opt (g : flow) (o : nat) (p : flow) : flow * nat :=
  ({| fl_mean := down (fl_mean g) (fl_mean p); fl_log_std := down (fl_log_std g) (fl_log_std p) |}, S o).
Definition w_fit (n : nat) (cfg : config) (bs : list (Q * list Q)) (vs : option (list (Q * list Q))) (m : option nat) :=
  advi_fit nat Q Q Q nat flow nat Q Q w_ex w_split w_normal (fun o => o) (fun j => j) w_diff (fun g _ => g) (fun g _ => g) (fun g => g) (fun _ g => g) w_opt (fun _ => 0%nat)
    0 0 n (fun d => repeat 1%Q d) 7%nat w_init m w_net (fun _ => 0%Q) (@None (bool -> option nat -> Q -> Q * nat)) None t_log_prob 1 1
    (Some [fun p _ ys => (p - nth 0 ys 0)%Q]) true no_h (fun _ => None) cfg bs vs.
Definition w_view (r : result (list (string * (tree (list Q) * tree (list Q))) * option nat * list (list Q) * list (list Q))) :=
  rmap (fun '(st, m, ms, mvs) => (ravel (wrap (first_components st)), ravel (wrap (second_components st)), m, map (map Qred) ms, map (map Qred) mvs)) r.
Definition w_drawn (r : result (list (string * (tree (list Q) * tree (list Q))) * option nat * list (list Q) * list (list Q))) : result (list Q) :=
  bind r (fun '(st, _, _, _) => rmap (fun t => map Qred (ravel t)) (advi_draw nat w_ex w_split w_normal 0 w_init st 0%nat)).
