(** Model of how posteriors store and sample flat vectors of parameters:
    fortuna/prob_model/posterior/normalizing_flow/advi/advi_trainer.py:58-93,
    advi_posterior.py:212-338 and 413-451, posterior/swag/swag_trainer.py:41-158,
    swag_posterior.py:204-292, posterior/laplace/laplace_posterior.py:321-377.

    A parameter array is its list of entries (as in LapModel.ravel); [V] is any type of
    numbers. *)
From Coq Require Import List Arith Bool String.
From Verif Require Import Lib NestedModel FreezeModel LapModel.
Import ListNotations.
Open Scope list_scope.
Local Notation length := List.length.
Local Notation concat := List.concat.
Local Notation "a >>= f" := (bind a f) (at level 61, left associativity).

Section Flat.
Context {V : Type}.
Notation ptree := (tree (list V)).

(** ---- jax.flatten_util.ravel_pytree(t)[1] ---- *)
(** run the readers one after the other, each from where the previous one stopped *)
Fixpoint thread {A} (readers : list (string * (list V -> A * list V))) (l : list V) : list (string * A) * list V :=
  match readers with
  | [] => ([], l)
  | (k, f) :: r => let (a, l1) := f l in let (d, l2) := thread r l1 in ((k, a) :: d, l2)
  end.
(** cut the vector into arrays of the sizes of the leaves, in the order of LapModel.ravel *)
Fixpoint cut_tree (t : ptree) (l : list V) : ptree * list V :=
  match t with
  | Leaf v => (Leaf (firstn (length v) l), skipn (length v) l)
  | Dict kvs =>
      let (d, r) := thread (sort_keys ((fix go (kvs : list (string * ptree)) : list (string * (list V -> ptree * list V)) :=
        match kvs with [] => [] | (k, v) :: r => (k, cut_tree v) :: go r end) kvs)) l in
      (Dict d, r)
  end.
(** a vector of another length cannot be reshaped *)
Definition unravel (t : ptree) (l : list V) : result ptree :=
  if length l =? length (ravel t) then Ok (fst (cut_tree t l)) else Err ValueError.
(** of a tuple or list of trees *)
Fixpoint cut_trees (ts : list ptree) (l : list V) : list ptree :=
  match ts with [] => [] | t :: ts => let (t', r) := cut_tree t l in t' :: cut_trees ts r end.
Definition unravel_list (ts : list ptree) (l : list V) : result (list ptree) :=
  if length l =? length (concat (map ravel ts)) then Ok (cut_trees ts l) else Err ValueError.

(** ---- ADVI without freeze function ---- *)
(** parameters {component: {"params": tree}} *)
Definition wrap (cs : list (string * ptree)) : ptree := Dict (map (fun kv => (fst kv, Dict [("params"%string, snd kv)])) cs).
Definition unwrap (t : ptree) : result (list (string * ptree)) :=
  match t with
  | Leaf _ => Err TypeError
  | Dict kvs => mapM (fun kv => rmap (fun v => (fst kv, v)) (sub_get (snd kv) "params")) kvs
  end.
(** advi_architecture.py:56, entry by entry: [fwd m s u] is m + exp(s) * u *)
Context (fwd : V -> V -> V -> V).
Definition forward (mean log_std noise : list V) : list V :=
  map (fun q => fwd (fst (fst q)) (snd (fst q)) (snd q)) (combine (combine mean log_std) noise).
(** advi_trainer.py:87-93: the state at the end of training ([init]: the initial parameters,
    whose structure _unravel has, advi_posterior.py:420) *)
Definition advi_state (init : list (string * ptree)) (mean log_std : list V) : result (list (string * (ptree * ptree))) :=
  unravel (wrap init) mean >>= unwrap >>= fun ms =>
  unravel (wrap init) log_std >>= unwrap >>= fun ss => pair_components ms ss.
(** advi_posterior.py:300-311 *)
Definition advi_sample (shape : list (string * ptree)) (state : list (string * (ptree * ptree))) (noise : list V) : result ptree :=
  unravel (wrap shape) (forward (ravel (Dict (first_components state))) (ravel (Dict (second_components state))) noise).
(** advi_posterior.py:247-261: the structure _unravel has after load_state *)
Definition advi_loaded_shape (state : list (string * (ptree * ptree))) : list (string * ptree) := first_components state.

(** ---- ADVI with freeze function ---- *)
(** advi_posterior.py:424-435 *)
Definition unravel_paths (shape : ptree) (paths : list path) (flat : list V) : result ptree :=
  mapM (nested_get shape) paths >>= fun objs => unravel_list objs flat >>= fun os => nested_set shape paths os false.
(** advi_trainer.py:77-85 *)
Definition advi_state_paths (init : ptree) (paths : list path) (mean log_std : list V) : result ptree :=
  unravel_paths init paths mean >>= fun m =>
  mapM (nested_get init) paths >>= fun objs => unravel_list objs log_std >>= fun ss =>
  nested_pair m paths ss ["mean"; "log_std"]%string.
(** advi_posterior.py:313-331; [decoded]: the paths as read from the state *)
Definition advi_sample_paths (unrav : list V -> result ptree) (decoded : list path) (state : ptree) (noise : list V) : result ptree :=
  nested_unpair state decoded ["mean"; "log_std"]%string >>= fun ml =>
  ravel_paths (fst ml) decoded >>= fun m => ravel_paths (snd ml) decoded >>= fun s =>
  unrav (forward m s noise).
(** after [fit] the attribute _unravel has the initial parameters and their paths *)
Definition advi_sample_fitted (init : ptree) (paths decoded : list path) (state : ptree) (noise : list V) : result ptree :=
  advi_sample_paths (unravel_paths init paths) decoded state noise.
(** after [load_state], advi_posterior.py:235-261, the means and the paths of the state *)
Definition advi_sample_loaded (decoded : list path) (state : ptree) (noise : list V) : result ptree :=
  nested_unpair state decoded ["mean"; "log_std"]%string >>= fun ml =>
  advi_sample_paths (unravel_paths (fst ml) decoded) decoded state noise.

(** ---- SWAG with freeze function ---- *)
(** swag_trainer.py:79-83: the statistics are of ravelled trainable parameters; swag_posterior.py:218-222
    and 244-263: [flat] is a draw around the mean *)
Definition swag_flat (trainable : ptree) : list V := ravel trainable.
Definition swag_sample_paths (params : ptree) (decoded : list path) (flat : list V) : result ptree :=
  mapM (nested_get params) decoded >>= fun objs => unravel_list objs flat >>= fun os => nested_set params decoded os false.

(** ---- Laplace with freeze function ---- *)
(** tree_map of a function of three arguments; the structures must agree *)
Fixpoint zip3 (f : V -> V -> V -> V) (a b c : list V) : list V :=
  match a, b, c with x :: a, y :: b, z :: c => f x y z :: zip3 f a b c | _, _, _ => [] end.
Fixpoint tree_map3 (f : V -> V -> V -> V) (a b c : ptree) : result ptree :=
  match a, b, c with
  | Leaf x, Leaf y, Leaf z => Ok (Leaf (zip3 f x y z))
  | Dict ka, Dict kb, Dict kc =>
      if negb (length ka =? length kb) || negb (length ka =? length kc) then Err ValueError
      else rmap Dict ((fix go (ka : list (string * ptree)) : result (list (string * ptree)) :=
             match ka with
             | [] => Ok []
             | (k, x) :: r =>
                 match assoc_get k kb, assoc_get k kc with
                 | Some y, Some z => bind (tree_map3 f x y z) (fun t => rmap (cons (k, t)) (go r))
                 | _, _ => Err ValueError
                 end
             end) ka)
  | _, _, _ => Err ValueError
  end.
(** laplace_state.py:80-95 with which_params *)
Definition laplace_state_paths (mean : ptree) (paths : list path) (hess : list ptree) : result ptree :=
  nested_pair mean paths hess ["mean"; "hess_lik_diag"]%string.
(** laplace_posterior.py:327-358: [noise] a tree like that of the curvatures, [draw m h e] is
    m + std(h) * e *)
Definition laplace_sample_paths (draw : V -> V -> V -> V) (state : ptree) (decoded : list path) (noise : ptree) : result ptree :=
  nested_unpair state decoded ["mean"; "hess_lik_diag"]%string >>= fun mh =>
  mapM (fun p => nested_get (fst mh) p >>= fun m => nested_get (snd mh) p >>= fun h => nested_get noise p >>= fun e => tree_map3 draw m h e) decoded >>= fun os =>
  nested_set (fst mh) decoded os false.

(** ---- SWAG statistics on several devices ---- *)
(** an array of numbers: a vector, or a vector with a leading axis of length 1 *)
Inductive array := Vec (l : list V) | Axis1 (l : list V).
(** swag_trainer.py:41-63 *)
Definition swag_stat (multi_device : bool) (stat : list V) : array := if multi_device then Axis1 stat else Vec stat.
(** mixin save_checkpoint of the multi-device trainer takes x[0] of every array; lines 149-158:
    the returned state gets the statistics after that *)
Definition first_device (a : array) : array := match a with Axis1 l => Vec l | Vec l => Vec l end.
Definition swag_checkpoint (multi_device : bool) (stat : list V) : array :=
  if multi_device then first_device (swag_stat multi_device stat) else swag_stat multi_device stat.
Definition swag_returned (multi_device : bool) (stat : list V) : array := swag_stat multi_device stat.
(** swag_posterior.py:212 and 228: len(state.mean) normal numbers *)
Definition swag_n_params (mean : array) : nat := match mean with Vec l => length l | Axis1 _ => 1 end.
(** lines 291-292 with broadcasting; [draw m s d z] combines mean, std and low-rank part with a
    normal number, [z1] the normal numbers *)
Definition swag_draw (draw : V -> V -> V -> V -> V) (mean std dev : array) (z1 : list V) : result array :=
  let comb m s d z := map (fun q => draw (fst (fst (fst q))) (snd (fst (fst q))) (snd (fst q)) (snd q)) (combine (combine (combine m s) d) z) in
  match mean, std, dev with
  | Vec m, Vec s, Vec d => if length z1 =? length m then Ok (Vec (comb m s d z1)) else Err TypeError
  | Axis1 m, Axis1 s, Axis1 d => match z1 with [z] => Ok (Axis1 (comb m s d (repeat z (length m)))) | _ => Err TypeError end
  | _, _, _ => Err TypeError
  end.
(** unravelling splits along the first axis, so that a leading axis is only accepted if there is
    a single array, which is reshaped *)
Definition unravel_array (t : ptree) (a : array) : result ptree :=
  match a with
  | Vec l => unravel t l
  | Axis1 l => if length (leaves t) =? 1 then unravel t l else Err TypeError
  end.
Definition swag_sample (draw : V -> V -> V -> V -> V) (params : ptree) (mean std dev : array) (normal : nat -> list V) : result ptree :=
  swag_draw draw mean std dev (normal (swag_n_params mean)) >>= unravel_array params.
End Flat.
