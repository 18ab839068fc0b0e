(** Properties of plotted data (C150, C151). *)
From Coq Require Import List Arith ZArith QArith String Permutation Sorted.
From Verif Require Import Lib PlotModel PlotSpec PlotProofs PlotProofs2 PlotCases.
From Verif Require Import Lit.
Import ListNotations.
Open Scope nat_scope.
Open Scope list_scope.
Local Notation length := List.length.
Local Notation concat := List.concat.

(** C150: cells, values and points of the two-dimensional plots *)
Theorem C150_given_axes : forall U C inputs preds a b (h : Q * Q -> U) (base first second : C),
  (forall l ps, inputs = Some l -> preds = Some ps -> length ps = length l) ->
  exists fig, plot_2d inputs preds (Some a) (Some b) None None (Some (map h)) base first second false = Ok fig /\
    f_cells fig = lattice a b /\ f_values fig = map (map h) (lattice a b) /\ points_ok inputs preds base first second (f_points fig).
Proof. exact (@given_axes). Qed.
Print Assumptions C150_given_axes.
Theorem C150_own_axes : forall U C l preds xx1 xx2 (h : Q * Q -> U) (base first second : C), l <> [] ->
  (forall ps, preds = Some ps -> length ps = length l) ->
  (forall a, xx1 = Some a -> 2 <= length a) -> (forall b, xx2 = Some b -> 2 <= length b) -> xx1 = None \/ xx2 = None ->
  exists fig a b, plot_2d (Some l) preds xx1 xx2 None None (Some (map h)) base first second false = Ok fig /\
    f_cells fig = lattice a b /\ f_values fig = map (map h) (lattice a b) /\ points_ok (Some l) preds base first second (f_points fig) /\
    length a = length b /\ match xx1 with Some x => a = x | None => spans a (map fst l) end /\ match xx2 with Some x => b = x | None => spans b (map snd l) end /\
    (xx1 = None -> xx2 = None -> length a = 100).
Proof. exact (@own_axes). Qed.
Print Assumptions C150_own_axes.
Theorem C150_given_grid : forall U C l preds a b u (base first second : C),
  (forall ps, preds = Some ps -> length ps = length l) -> a <> [] -> b <> [] -> apart a -> apart b -> length u = length a * length b ->
  exists fig : figure U C, plot_2d (Some l) preds None None (Some (concat (lattice a b))) (Some u) None base first second false = Ok fig /\
    f_cells fig = lattice a b /\ (forall i j, i < length a -> j < length b -> forall d, nth j (nth i (f_values fig) []) d = nth (i * length b + j) u d) /\ points_ok (Some l) preds base first second (f_points fig).
Proof. exact (@given_grid). Qed.
Print Assumptions C150_given_grid.
Example C150_case_apart : apart [1; 2; 3]%Q /\ ~ apart [1; 2; 1]%Q.
Proof.
  split; [|intros A; apply (A 0 2); [cbn; lia|reflexivity]]. intros i j H. destruct i as [|[|[|i]]], j as [|[|[|j]]]; cbn in H; try lia; vm_compute; discriminate.
Qed.
Theorem C150_order : forall U C inputs preds xx1 xx2 g gu fn (base first second : C) ticks (fig : figure U C),
  plot_2d inputs preds xx1 xx2 (Some g) gu fn base first second ticks = Ok fig ->
  concat (f_cells fig) = g /\ match gu, fn with Some u, _ => concat (f_values fig) = u | None, Some f => concat (f_values fig) = f g | None, None => False end.
Proof. exact (@grid_order). Qed.
Print Assumptions C150_order.
Theorem C150_rejects : forall U C inputs preds xx1 xx2 grid gu fn (base first second : C) ticks,
  inputs = None /\ (xx1 = None \/ xx2 = None) \/ (gu = None /\ fn = None) \/ (grid = None /\ gu <> None) ->
  plot_2d (U := U) inputs preds xx1 xx2 grid gu fn base first second ticks = Err ValueError.
Proof. exact (@plot_rejects). Qed.
Print Assumptions C150_rejects.
Theorem C150_grid_only_refuted : forall U C g u preds fn (base first second : C), plot_2d (U := U) None preds None None (Some g) (Some u) fn base first second false = Err ValueError.
Proof. exact (@grid_alone). Qed.
Print Assumptions C150_grid_only_refuted.
Theorem C150_ticks_refuted : forall U C inputs preds xx1 xx2 grid gu fn (base first second : C) (fig : figure U C),
  plot_2d inputs preds xx1 xx2 grid gu fn base first second false = Ok fig -> plot_2d inputs preds xx1 xx2 grid gu fn base first second true = Err AttributeError.
Proof. exact (@ticks_raise). Qed.
Print Assumptions C150_ticks_refuted.
Example C150_case :
  match plot_2d (Some two_points) (Some [1; 0]%Z) (Some [1; 2; 3]%Q) (Some [5; 7]%Q) None None (Some (map product_of)) 0 1 2 false with
  | Ok fig => f_cells fig = [[(1, 5); (1, 7)]; [(2, 5); (2, 7)]; [(3, 5); (3, 7)]]%Q /\ f_values fig = [[5; 7]; [10; 14]; [15; 21]]%Q /\ f_points fig = Some (two_points, inr [1; 2])
  | Err _ => False
  end /\
  match plot_2d (Some two_points) None None None None None (Some (map product_of)) 0 1 2 false with
  | Ok fig => length (f_cells fig) = 100 /\ length (concat (f_cells fig)) = 100 * 100 /\ nth 0 (concat (f_values fig)) 0%Q = (-10)%Q
  | Err _ => False
  end /\
  plot_2d None None None None (Some [(0, 0); (0, 1)]%Q) (Some [3; 4]%Q) None 0 1 2 false = Err ValueError.
Proof. vm_compute. repeat split. Qed.

(** C151: the lines of a reliability diagram *)
Theorem C151_lines : forall argsort accs confs names, argsorts argsort -> length accs = length confs ->
  (forall i, i < length accs -> length (nth i accs []) = length (nth i confs [])) ->
  (names = NoLabels \/ names = ManyLabels [] \/ exists l, names = ManyLabels l /\ length l = length accs) ->
  exists lines, plot_reliability argsort (Many accs) (Many confs) names = Ok lines /\ length lines = length accs /\
    forall i, i < length accs -> exists l, nth_error lines i = Some (l, match names with ManyLabels ns => nth_error ns i | _ => None end) /\
      Permutation l (gaps (nth i confs []) (nth i accs [])) /\ StronglySorted (fun p q => (fst p <= fst q)%Q) l.
Proof. exact (@diagram). Qed.
Print Assumptions C151_lines.
Example C151_case_argsorts : argsorts insertion_argsort.
Proof. exact insertion_sorts. Qed.
Theorem C151_single : forall argsort a c names, plot_reliability argsort (One a) (One c) names = plot_reliability argsort (Many [a]) (Many [c]) names.
Proof. exact (@diagram_one). Qed.
Print Assumptions C151_single.
Theorem C151_label : forall argsort accs confs s, plot_reliability argsort accs confs (OneLabel s) = plot_reliability argsort accs confs (match s with EmptyString => NoLabels | _ => ManyLabels [s] end).
Proof. exact (@diagram_label). Qed.
Print Assumptions C151_label.
Theorem C151_argsort : argsorts insertion_argsort.
Proof. exact (@insertion_argsorts). Qed.
Print Assumptions C151_argsort.
Theorem C151_rejects : forall argsort accs confs names,
  length accs <> length confs \/ (exists ns, names = ManyLabels ns /\ ns <> [] /\ length ns <> length accs) \/ (exists s, names = OneLabel s /\ s <> EmptyString /\ length accs <> 1) ->
  plot_reliability argsort (Many accs) (Many confs) names = Err ValueError.
Proof. exact (@diagram_rejects). Qed.
Print Assumptions C151_rejects.
Theorem C151_broadcast : forall argsort x c names, argsorts argsort ->
  length c <> 1 -> plot_reliability argsort (One [x]) (One c) names = plot_reliability argsort (One (map (fun _ => x) c)) (One c) names.
Proof. exact (@diagram_broadcast). Qed.
Print Assumptions C151_broadcast.
Theorem C151_one_confidence : forall argsort x y a, argsorts argsort -> plot_reliability argsort (One (y :: a)) (One [x]) NoLabels = Ok [([(x, (x - y)%Q)], None)].
Proof. exact (@diagram_one_confidence). Qed.
Print Assumptions C151_one_confidence.
Theorem C151_shape : forall argsort a c names, length a <> length c -> length a <> 1 -> length c <> 1 -> (names = NoLabels \/ exists s, names = OneLabel s) ->
  plot_reliability argsort (One a) (One c) names = Err ValueError.
Proof. exact (@diagram_shape). Qed.
Print Assumptions C151_shape.
Example C151_case :
  match plot_reliability insertion_argsort (Many [[1 # 2; 1 # 4]; [1]]%Q) (Many [[3 # 4; 1 # 4]; [1 # 2]]%Q) (ManyLabels ["a"; "b"]%string) with
  | Ok [(l1, Some "a"%string); (l2, Some "b"%string)] => map (fun p => (Qred (fst p), Qred (snd p))) l1 = [(1 # 4, 0); (3 # 4, 1 # 4)]%Q /\ map (fun p => (Qred (fst p), Qred (snd p))) l2 = [(1 # 2, - 1 # 2)]%Q
  | _ => False
  end /\ plot_reliability insertion_argsort (Many [[1]; [1]]%Q) (Many [[1]]%Q) NoLabels = Err ValueError.
Proof. vm_compute. repeat split. Qed.
