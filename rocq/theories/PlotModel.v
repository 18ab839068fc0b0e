(** Model of the data that fortuna/plot.py draws: plot_2d_classification_predictions_and_uncertainty
    (lines 109-189) and plot_reliability_diagram (lines 244-274).

    A figure is what is handed to matplotlib: positions and values of the cells, the points with
    their colours, the lines.  Simplifications: numbers are rationals; styles, titles and files are
    not modelled. *)
From Coq Require Import List Arith QArith Qminmax Bool String.
From Verif Require Import Lib.
Import ListNotations.
Local Open Scope nat_scope.
Local Open Scope list_scope.
Local Notation length := List.length.

(** ---- cells ---- *)
(** np.linspace *)
Definition linspace (lo hi : Q) (n : nat) : list Q :=
  map (fun i => (lo + inject_Z (Z.of_nat i) * ((hi - lo) / inject_Z (Z.of_nat (n - 1))))%Q) (seq 0 n).
(** np.min and np.max of a column *)
Definition q_min (l : list Q) : result Q := match l with [] => Err ValueError | x :: r => Ok (fold_left Qmin r x) end.
Definition q_max (l : list Q) : result Q := match l with [] => Err ValueError | x :: r => Ok (fold_left Qmax r x) end.
(** len(np.unique(column)) *)
Fixpoint distinct (l : list Q) : nat :=
  match l with [] => 0 | x :: r => if existsb (Qeq_bool x) r then distinct r else S (distinct r) end.
(** array.reshape(n, k) of a list of entries *)
Definition reshape2 {A} (n k : nat) (l : list A) : result (list (list A)) :=
  if length l =? n * k then Ok (map (fun i => firstn k (skipn (i * k) l)) (seq 0 n)) else Err ValueError.

Section Cells.
Context {U C : Type}.
Variables (inputs : option (list (Q * Q))) (preds : option (list Z)) (xx1 xx2 : option (list Q)) (grid : option (list (Q * Q)))
  (grid_uncertainty : option (list U)) (uncertainty_fn : option (list (Q * Q) -> list U)) (base : C) (first second : C) (remove_ticks : bool).
Record figure := { f_cells : list (list (Q * Q)); f_values : list (list U); f_points : option (list (Q * Q) * (C + list C)) }.
Definition none {A} (o : option A) : bool := match o with None => true | Some _ => false end.
(** lines 109-131 *)
Definition rejected : bool :=
  ((none xx1 || none xx2) && none inputs) || (none grid_uncertainty && none uncertainty_fn) || (none grid && none uncertainty_fn)
  || (negb (none grid) && (none uncertainty_fn && none grid_uncertainty)) || (negb (none grid_uncertainty) && none grid).
(** lines 134-140: one axis from a column of the inputs *)
Definition axis (column : list Q) (n : nat) : result (list Q) :=
  bind (q_min column) (fun lo => bind (q_max column) (fun hi => Ok (linspace (lo - (5 # 4) * (hi - lo)) (hi + (5 # 4) * (hi - lo)) n))).
(** lines 132-147: the axes, when there is no grid *)
Definition axes : result (list Q * list Q) :=
  let points := match inputs with Some l => l | None => [] end in
  match xx1, xx2 with
  | Some a, Some b => Ok (a, b)
  | Some a, None => rmap (pair a) (axis (map snd points) (length a))
  | None, Some b => rmap (fun a => (a, b)) (axis (map fst points) (length b))
  | None, None => bind (axis (map fst points) 100) (fun a => rmap (pair a) (axis (map snd points) (length a)))
  end.
(** lines 148-189 *)
Definition drawn (g : list (Q * Q)) (size1 size2 : nat) : result figure :=
  let u := match grid_uncertainty, uncertainty_fn with Some u, _ => u | None, Some f => f g | None, None => [] end in
  bind (reshape2 size1 size2 u) (fun values =>
  bind (reshape2 size1 size2 g) (fun cells =>
  bind (match inputs, preds with
        | None, _ => Ok None
        | Some l, None => Ok (Some (l, inl base))
        | Some l, Some ps => if length ps =? length l then Ok (Some (l, inr (map (fun i => if (i =? 1)%Z then first else second) ps))) else Err ValueError
        end) (fun points =>
  if remove_ticks then Err AttributeError
  else Ok {| f_cells := cells; f_values := values; f_points := points |}))).
Definition plot_2d : result figure :=
  if rejected then Err ValueError
  else match grid with
       | Some g => drawn g (match xx1 with Some a => length a | None => distinct (map fst g) end) (match xx2 with Some b => length b | None => distinct (map snd g) end)
       | None => bind axes (fun ab => drawn (flat_map (fun x => map (pair x) (snd ab)) (fst ab)) (length (fst ab)) (length (snd ab)))
       end.
End Cells.
Arguments figure U C : clear implicits.

(** ---- reliability diagram ---- *)
Inductive curves := One (c : list Q) | Many (cs : list (list Q)).
Definition as_list (c : curves) : list (list Q) := match c with One c => [c] | Many cs => cs end.
Inductive labels := NoLabels | OneLabel (s : string) | ManyLabels (l : list string).
(** lines 252-254: an empty list or string counts as no labels *)
Definition label_list (l : labels) : option (list string) :=
  match l with NoLabels => None | OneLabel EmptyString => None | OneLabel s => Some [s] | ManyLabels [] => None | ManyLabels l => Some l end.
(** c - a with broadcasting *)
Definition gap (c a : list Q) : result (list Q) :=
  if length c =? length a then Ok (map (fun p => (fst p - snd p)%Q) (combine c a))
  else match c, a with
       | _, [y] => Ok (map (fun x => (x - y)%Q) c)
       | [x], _ => Ok (map (fun y => (x - y)%Q) a)
       | _, _ => Err ValueError
       end.
(** lines 265-268 *)
Definition line (argsort : list Q -> list nat) (a c : list Q) : result (list (Q * Q)) :=
  bind (gap c a) (fun d => bind (gather (argsort c) c) (fun xs => bind (gather (argsort c) d) (fun ys => Ok (combine xs ys)))).
Definition plot_reliability (argsort : list Q -> list nat) (accs confs : curves) (names : labels) : result (list (list (Q * Q) * option string)) :=
  let accs := as_list accs in
  let confs := as_list confs in
  if negb (length accs =? length confs) then Err ValueError
  else if match label_list names with Some l => negb (length accs =? length l) | None => false end then Err ValueError
  else mapM (fun iac => let '(i, (a, c)) := iac in
             rmap (fun l => (l, match label_list names with Some l => nth_error l i | None => None end)) (line argsort a c))
            (combine (seq 0 (length accs)) (combine accs confs)).
