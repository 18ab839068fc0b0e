(** Model of the networks shipped with fortuna: fortuna/model/mlp.py (numerically),
    fortuna/model/linear.py, fortuna/model/constant.py, fortuna/model/scalar_constant.py,
    fortuna/model/hyper.py, fortuna/model/scalar_hyper.py, and the shapes computed by
    fortuna/model/lenet.py, fortuna/model/cnn.py, fortuna/model/resnet.py and
    fortuna/model/wideresnet.py.

    Simplifications.  A batch is a list of rows that have already been flattened
    ([x.reshape(x.shape[0], -1)]); numbers are rationals.  flax's [nn.Dense], [nn.Dropout] and the
    broadcasting addition of jax are modelled by their documented behaviour; a parameter that is
    missing or has the wrong shape is flax's ScopeParam*Error, written [RuntimeError].  Layer names
    "hidden<i+1>" and "last" are constructors.  Activations are arbitrary functions of the whole
    array.  For the convolutional networks only shapes are modelled (batch normalisation, ReLU and
    dropout keep shapes). *)
From Coq Require Import List Arith Bool QArith.
From Verif Require Import Lib QuantModel ConfRegModel.
Import ListNotations.
Local Notation "a >>= f" := (bind a f) (at level 61, left associativity).
Open Scope nat_scope.

(** ---- flax primitives ---- *)
Definition batch := list (list Q).
(** a kernel of shape (inputs, features), as rows, and a bias *)
Definition layer : Type := list (list Q) * list Q.
Inductive lname := Hidden (i : nat) | Last.
Definition params := lname -> option layer.

Definition affine (l : layer) (x : list Q) : list Q :=
  map (fun j => (dot x (map (fun r => nth j r 0) (fst l)) + nth j (snd l) 0)%Q) (seq 0 (length (snd l))).
Definition shape_ok (l : layer) (features : nat) (x : batch) : bool :=
  (length (snd l) =? features) && forallb (fun r => length r =? features) (fst l) && forallb (fun r => length r =? length (fst l)) x.
(** [nn.Dense(features, name=name)(x)] *)
Definition dense (ps : params) (name : lname) (features : nat) (x : batch) : result batch :=
  match ps name with
  | Some l => if shape_ok l features x then Ok (map (affine l) x) else Err RuntimeError
  | None => Err RuntimeError
  end.

(** [nn.Dropout(rate)(x, deterministic)]; [mask call i j] are the Bernoulli draws of the [call]-th use *)
Definition dropout (rate : Q) (mask : nat -> nat -> nat -> bool) (deterministic : bool) (call : nat) (x : batch) : batch :=
  if deterministic || Qeq_bool rate 0 then x
  else if Qeq_bool rate 1 then map (map (fun _ => 0%Q)) x
  else map (fun p => map (fun q => if mask call (fst p) (fst q) then (snd q / (1 - rate))%Q else 0%Q) (combine (seq 0 (length (snd p))) (snd p)))
           (combine (seq 0 (length x)) x).

(** [h + x] for two batches with the same number of rows *)
Definition add_row (h x : list Q) : result (list Q) :=
  if length h =? length x then Ok (zip_with Qplus h x)
  else match h, x with
       | [a], _ => Ok (map (Qplus a) x)
       | _, [b] => Ok (map (fun v => (v + b)%Q) h)
       | _, _ => Err TypeError
       end.
Definition add_batch (h x : batch) : result batch := mapM (fun p => add_row (fst p) (snd p)) (combine h x).

(** ---- mlp.py ---- *)
Section Mlp.
Variable ps : params.
Variable widths : list nat.
Variable rate : Q.
Variable mask : nat -> nat -> nat -> bool.
Variable train : bool.

(** the inner [update], mlp.py:139-144 and 177-182 *)
Definition update (activations : list (batch -> batch)) (i : nat) (x : batch) : result batch :=
  match nth_error widths i with
  | None => Err IndexError
  | Some w =>
    dense ps (Hidden i) w x >>= fun x =>
    let x := if i <? length activations then (nth i activations (fun x => x)) x else x in
    Ok (dropout rate mask (negb train) i x)
  end.

(** MLPDeepFeatureExtractorSubNet.__call__, mlp.py:146-149 *)
Fixpoint mlp_loop (activations : list (batch -> batch)) (is : list nat) (x : batch) : result batch :=
  match is with
  | [] => Ok x
  | i :: r => update activations i x >>= mlp_loop activations r
  end.
Definition mlp_features (activations : list (batch -> batch)) (x : batch) : result batch :=
  mlp_loop activations (seq 0 (length widths)) x.

(** DeepResidualFeatureExtractorSubNet.__call__, mlp.py:184-190 *)
Fixpoint residual_loop (activations : list (batch -> batch)) (is : list nat) (x : batch) : result batch :=
  match is with
  | [] => Ok x
  | i :: r => update activations i x >>= fun y => add_batch x y >>= residual_loop activations r
  end.
Definition residual_features (activations : list (batch -> batch)) (x : batch) : result batch :=
  match widths with
  | [] => Err IndexError
  | w :: _ => dense ps (Hidden 0) w x >>= residual_loop activations (seq 1 (length widths - 1))
  end.

(** MLPOutputSubNet.__call__, mlp.py:225-228 *)
Definition output_subnet (activation : option (batch -> batch)) (output_dim : nat) (x : batch) : result batch :=
  dense ps Last output_dim (match activation with Some f => f x | None => x end).

(** setup and __call__, mlp.py:43-64 and 72-88.  The generic [Exception] of line 45 is [ValueError]. *)
Definition net_call (features : list (batch -> batch) -> batch -> result batch)
  (activations : list (batch -> batch)) (output_dim : nat) (x : batch) : result batch :=
  if negb (length widths =? length activations) then Err ValueError
  else match rev activations with
       | [] => Err IndexError
       | last_activation :: _ => features (removelast activations) x >>= output_subnet (Some last_activation) output_dim
       end.
Definition mlp := net_call mlp_features.
Definition deep_residual := net_call residual_features.
End Mlp.

(** linear.py:19-22, on flat inputs *)
Definition linear_model (ps : params) (output_dim : nat) (x : batch) : result batch := dense ps Last output_dim x.

(** constant.py:26-29, scalar_constant.py:27-30, hyper.py:19-28, scalar_hyper.py:23-31; [x] any list of inputs *)
Definition constant_model {X} (constant : list Q) (x : list X) : batch := map (fun _ => constant) x.
Definition scalar_constant_model {X} (scalar : Q) (output_dim : nat) (x : list X) : batch := map (fun _ => repeat scalar output_dim) x.
(** the value with its number of dimensions; parameters are an empty array *)
Definition hyper_model {X} (ndim : nat) (value : list Q) (dummy : list Q) (x : list X) : result batch :=
  if negb (ndim =? 1) then Err ValueError else Ok (map (fun _ => value) x).
Definition scalar_hyper_model {X} (is_float : bool) (value : Q) (output_dim : nat) (dummy : list Q) (x : list X) : result batch :=
  if negb is_float then Err ValueError else Ok (map (fun _ => repeat value output_dim) x).

(** ---- convolutional networks: shapes of one example (height, width, channels) ---- *)
Definition image : Type := nat * nat * nat.
(** spatial size after a window of size [k] with stride [s]: no padding, [p] on each side, SAME *)
Definition valid_out (k s n : nat) : nat := if n <? k then 0 else (n - k) / s + 1.
Definition padded_out (k s p n : nat) : nat := valid_out k s (n + 2 * p).
Definition same_out (s n : nat) : nat := (n + s - 1) / s.
Definition conv_valid (features k : nat) (x : image) : image :=
  let '(h, w, c) := x in (valid_out k 1 h, valid_out k 1 w, features).
Definition pool2 (x : image) : image := let '(h, w, c) := x in (valid_out 2 2 h, valid_out 2 2 w, c).
Definition conv_same (features s : nat) (x : image) : image := let '(h, w, c) := x in (same_out s h, same_out s w, features).
Definition flat (x : image) : nat := let '(h, w, c) := x in h * w * c.

(** lenet.py:73-91, 92-95, 129: the sizes of the flattened features and of the dense layers *)
Definition lenet_flat (x : image) : nat := flat (pool2 (conv_valid 16 5 (pool2 (conv_valid 6 5 x)))).
Definition lenet_kernels (output_dim : nat) (x : image) : list (nat * nat) :=
  let '(h, w, c) := x in
  [(5 * 5 * c, 6); (5 * 5 * 6, 16); (lenet_flat x, 120); (120, 84); (84, output_dim)].
(** cnn.py:48-58, 76-77 *)
Definition cnn_flat (x : image) : nat := flat (pool2 (conv_valid 32 3 x)).
Definition cnn_kernels (output_dim : nat) (x : image) : list (nat * nat) :=
  let '(h, w, c) := x in [(3 * 3 * c, 32); (cnn_flat x, 128); (128, output_dim)].

(** shape of [a + b] *)
Definition bdim (a b : nat) : result nat :=
  if a =? b then Ok a else if a =? 1 then Ok b else if b =? 1 then Ok a else Err TypeError.
Definition add_shape (a b : image) : result image :=
  let '(h, w, c) := a in let '(h', w', c') := b in
  bdim h h' >>= fun h => bdim w w' >>= fun w => bdim c c' >>= fun c => Ok (h, w, c).
Definition image_eqb (a b : image) : bool :=
  let '(h, w, c) := a in let '(h', w', c') := b in (h =? h') && (w =? w') && (c =? c').

(** resnet.py:68-81: whether a projection is created, and the output shape *)
Definition resnet_block (filters stride : nat) (x : image) : result (bool * image) :=
  let y := conv_same filters 1 (conv_same filters stride x) in
  let proj := negb (image_eqb x y) in
  let residual := if proj then conv_same filters stride x else x in
  add_shape residual y >>= fun o => Ok (proj, o).
(** resnet.py:123-139 *)
Definition bottleneck_block (filters stride : nat) (x : image) : result (bool * image) :=
  let y := conv_same (filters * 4) 1 (conv_same filters stride (conv_same filters 1 x)) in
  let proj := negb (image_eqb x y) in
  let residual := if proj then conv_same (filters * 4) stride x else x in
  add_shape residual y >>= fun o => Ok (proj, o).

(** resnet.py:204-213; [num_filters], [i] and [j] as in the source *)
Section Stages.
Variable block : nat -> nat -> image -> result (bool * image).
Variable num_filters : nat.
Fixpoint stage (i : nat) (js : list nat) (x : image) : result (list bool * image) :=
  match js with
  | [] => Ok ([], x)
  | j :: r =>
    block (num_filters * 2 ^ i) (if (0 <? i) && (j =? 0) then 2 else 1) x >>= fun o =>
    stage i r (snd o) >>= fun p => Ok (fst o :: fst p, snd p)
  end.
Fixpoint stages (i : nat) (sizes : list nat) (x : image) : result (list (list bool) * image) :=
  match sizes with
  | [] => Ok ([], x)
  | n :: r => stage i (seq 0 n) x >>= fun o => stages (S i) r (snd o) >>= fun p => Ok (fst o :: fst p, snd p)
  end.
(** resnet.py:198-214: conv_init (7x7, stride 2, padding 3), max_pool (3x3, stride 2, SAME), the stages; the mean over
    the two spatial axes keeps the channels *)
Definition resnet_stem (x : image) : image :=
  let '(h, w, c) := x in (same_out 2 (padded_out 7 2 3 h), same_out 2 (padded_out 7 2 3 w), num_filters).
Definition resnet_features (stage_sizes : list nat) (x : image) : result (list (list bool) * image) :=
  stages 0 stage_sizes (resnet_stem x).
(** resnet.py:310-312 with the output layer of 248: the kernel shape of the dense layer, and the row length of the outputs *)
Definition resnet (stage_sizes : list nat) (output_dim : nat) (x : image) : result ((nat * nat) * nat) :=
  resnet_features stage_sizes x >>= fun o => let '(h, w, c) := snd o in Ok ((c, output_dim), output_dim).
End Stages.

(** wideresnet.py:71-85 *)
Definition wide_block (filters stride : nat) (x : image) : result (bool * image) :=
  let y := conv_same filters 1 (conv_same filters stride x) in
  let '(_, _, c) := x in
  let proj := negb (c =? filters) || negb (stride =? 1) in
  let residual := if proj then conv_same filters stride x else x in
  add_shape residual y >>= fun o => Ok (proj, o).
(** wideresnet.py:136-146 *)
Fixpoint wide_group (filters stride : nat) (is : list nat) (x : image) : result (list bool * image) :=
  match is with
  | [] => Ok ([], x)
  | i :: r =>
    wide_block filters (if i =? 0 then stride else 1) x >>= fun o =>
    wide_group filters stride r (snd o) >>= fun p => Ok (fst o :: fst p, snd p)
  end.
(** wideresnet.py:201, 213-249: up to the last group; [range] of a non-positive number is empty *)
Definition wide_groups (depth widen : nat) (x : image) : result (list (list bool) * image) :=
  let n := (depth - 4) / 6 in
  let x0 := conv_same 16 1 x in
  wide_group (16 * widen) 1 (seq 0 n) x0 >>= fun a =>
  wide_group (32 * widen) 2 (seq 0 n) (snd a) >>= fun b =>
  wide_group (64 * widen) 2 (seq 0 n) (snd b) >>= fun c =>
  Ok ([fst a; fst b; fst c], snd c).
(** [nn.avg_pool(x, (8, 8))] has stride 1; then the flattening *)
Definition wide_features (depth widen : nat) (x : image) : result nat :=
  wide_groups depth widen x >>= fun o => let '(h, w, c) := snd o in Ok (flat (valid_out 8 1 h, valid_out 8 1 w, c)).
