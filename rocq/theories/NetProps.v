(** Theorems about the shipped networks: C103-C106. *)
From Coq Require Import List Arith Lia Bool QArith.
From Verif Require Import Lib QuantModel ConfRegModel NetModel NetSpec NetProofs NetProofs2 NetProofs3 NetProofs4 NetCases.
From Verif Require Import Lit.
Import ListNotations.
Open Scope nat_scope.

(** ---- C103: MLP ---- *)
Theorem C103_evaluation : forall ps widths rate mask acts layers last d e out x,
  widths <> [] -> length widths = length acts -> Forall keeps_shape acts ->
  chained d widths layers e -> well_shaped last e out -> stores ps layers last -> rows_of d x ->
  mlp ps widths rate mask false acts out x = Ok (forward (combine layers acts) last x).
Proof. exact (@mlp_forward). Qed.
Print Assumptions C103_evaluation.
Theorem C103_shape : forall ps widths rate mask train acts layers last d e out x,
  widths <> [] -> length widths = length acts -> Forall keeps_shape acts ->
  chained d widths layers e -> well_shaped last e out -> stores ps layers last -> rows_of d x ->
  exists y, mlp ps widths rate mask train acts out x = Ok y /\ length y = length x /\ rows_of out y.
Proof. exact (@mlp_shape). Qed.
Print Assumptions C103_shape.
Theorem C103_rows : forall ps widths rate mask acts layers last d e out,
  widths <> [] -> length widths = length acts -> Forall keeps_shape acts -> Forall (fun f => exists g, rowwise f g) acts ->
  chained d widths layers e -> well_shaped last e out -> stores ps layers last ->
  exists F, forall x, rows_of d x -> mlp ps widths rate mask false acts out x = Ok (map F x).
Proof. exact (@mlp_rows). Qed.
Print Assumptions C103_rows.
Example C103_case_hypotheses : Forall keeps_shape [relu_act; relu_act] /\ Forall (fun f => exists g, rowwise f g) [relu_act; relu_act] /\
  exists l0 l1 last, stores toy_ps [l0; l1] last /\ well_shaped l0 2 2 /\ well_shaped l1 2 1 /\ well_shaped last 1 2 /\ rows_of 2 [[1; 1]; [-(3); 4]]%Q.
Proof.
  split; [repeat constructor; intros x; unfold relu_act; rewrite map_map; apply map_ext; intros r; now rewrite map_length|].
  split; [repeat constructor; eexists; intros x; reflexivity|].
  do 3 eexists. split; [split; [|reflexivity]; intros [|[|i]] l H; [injection H as <-; reflexivity..|destruct i; discriminate]|]. unfold well_shaped. cbn. repeat split; repeat constructor.
Qed.
Theorem C103_no_dropout : forall ps widths rate mask train acts out x, (rate == 0)%Q ->
  mlp ps widths rate mask train acts out x = mlp ps widths rate mask false acts out x.
Proof. exact (@mlp_rate_zero). Qed.
Print Assumptions C103_no_dropout.
Theorem C103_dropout : forall ps widths rate mask train acts g layers last d e out x,
  widths <> [] -> length widths = length acts -> Forall keeps_shape acts ->
  (forall y, List.last acts ident y = map (map g) y) -> homogeneous g -> (0 <= rate)%Q -> (rate <= 1)%Q ->
  chained d widths layers e -> well_shaped last e out -> stores ps layers last -> rows_of d x ->
  exists y, mlp ps widths rate mask train acts out x = Ok y
    /\ batch_eq y (forward_dropout (dropout rate mask (negb train)) 0 (combine layers acts) last x).
Proof. exact (@mlp_dropout). Qed.
Print Assumptions C103_dropout.
Theorem C103_dropout_refuted : exists ps widths rate mask acts layers last d e out x y,
  widths <> [] /\ length widths = length acts /\ Forall keeps_shape acts /\ chained d widths layers e
  /\ well_shaped last e out /\ stores ps layers last /\ rows_of d x
  /\ mlp ps widths rate mask true acts out x = Ok y
  /\ ~ batch_eq y (forward_dropout (dropout rate mask false) 0 (combine layers acts) last x).
Proof. exact (@dropout_refuted). Qed.
Print Assumptions C103_dropout_refuted.
Theorem C103_affine : forall l d w x j, well_shaped l d w -> length x = d -> j < w ->
  nth_error (affine l x) j
  = Some (qsum (map (fun i => nth i x 0 * nth j (nth i (fst l) []) 0) (seq 0 d)) + nth j (snd l) 0)%Q.
Proof. exact (@affine_spec). Qed.
Print Assumptions C103_affine.
Theorem C103_width_mismatch : forall ps w ws rate mask train acts l d out x, length (w :: ws) = length acts ->
  ps (Hidden 0) = Some l -> well_shaped l d w -> ~ rows_of d x ->
  mlp ps (w :: ws) rate mask train acts out x = Err RuntimeError.
Proof. exact (@mlp_width_mismatch). Qed.
Print Assumptions C103_width_mismatch.
Theorem C103_lengths : forall ps widths rate mask train acts out x,
  length widths <> length acts -> mlp ps widths rate mask train acts out x = Err ValueError.
Proof. exact (@mlp_bad_lengths). Qed.
Print Assumptions C103_lengths.
Theorem C103_no_layers : forall ps rate mask train out x, mlp ps [] rate mask train [] out x = Err IndexError.
Proof. exact (@mlp_no_layers). Qed.
Print Assumptions C103_no_layers.

Example C103_case_eval : mlp toy_ps [2; 1] (1 # 2) all_dropped false [relu_act; relu_act] 2 [[1; 1]; [-3; 4]]%Q = Ok [[5; 10]; [33; 80]]%Q.
Proof. vm_compute. reflexivity. Qed.
Example C103_case_relu : homogeneous relu.
Proof. exact relu_homogeneous. Qed.
Example C103_case_dropped : mlp toy_ps [2; 1] (1 # 2) all_dropped true [relu_act; relu_act] 2 [[1; 1]]%Q = Ok [[1; 0]]%Q.
Proof. vm_compute. reflexivity. Qed.

(** ---- C104: DeepResidualNet ---- *)
Theorem C104_evaluation : forall ps widths rate mask a0 amid az l0 mid lz last d w out x,
  widths = repeat w (2 + length mid) -> length amid = length mid -> Forall keeps_shape (a0 :: amid ++ [az]) ->
  well_shaped l0 d w -> Forall (fun l => well_shaped l w w) (mid ++ [lz]) -> well_shaped last w out ->
  stores ps (l0 :: mid ++ [lz]) last -> rows_of d x ->
  deep_residual ps widths rate mask false (a0 :: amid ++ [az]) out x
  = Ok (map (affine last) (az (residual_blocks (combine mid amid ++ [(lz, ident)]) (map (affine l0) x)))).
Proof. exact (@residual_eval). Qed.
Print Assumptions C104_evaluation.
Example C104_case_hypotheses : exists l0 l1 l2 last, stores res_ps [l0; l1; l2] last /\ well_shaped l0 1 2 /\ well_shaped l1 2 2 /\ well_shaped l2 2 2 /\ well_shaped last 2 1 /\ rows_of 1 [[3]]%Q /\
  Forall keeps_shape [shift_act; relu_act; relu_act] /\ zero_layer ([[0; 0]; [0; 0]], [0; 0])%Q.
Proof.
  do 4 eexists. split; [split; [|reflexivity]; intros [|[|[|i]]] l H; [injection H as <-; reflexivity..|destruct i; discriminate]|]. unfold well_shaped, zero_layer. cbn.
  repeat split; repeat constructor; intros x; unfold relu_act, shift_act; rewrite map_map; apply map_ext; intros r; now rewrite map_length.
Qed.
Theorem C104_first_activation_unused : forall ps widths rate mask train a a' acts out x, acts <> [] ->
  deep_residual ps widths rate mask train (a :: acts) out x = deep_residual ps widths rate mask train (a' :: acts) out x.
Proof. exact (@residual_first_activation). Qed.
Print Assumptions C104_first_activation_unused.
Theorem C104_two_layers_affine : forall ps w rate mask a0 az l0 lz d,
  well_shaped l0 d w -> well_shaped lz w w -> ps (Hidden 0) = Some l0 -> ps (Hidden 1) = Some lz ->
  keeps_shape a0 -> keeps_shape az ->
  exists F, (forall x, rows_of d x -> residual_features ps [w; w] rate mask false (removelast [a0; az]) x = Ok (map F x))
    /\ (forall t x y, length x = d -> length y = d -> row_eq (F (between t x y)) (between t (F x) (F y))).
Proof. exact (@residual_two_layers). Qed.
Print Assumptions C104_two_layers_affine.
Theorem C104_zero_layers : forall w (ls : list (layer * (batch -> batch))) h,
  rows_of w h ->
  Forall (fun lf => well_shaped (fst lf) w w /\ zero_layer (fst lf)
     /\ exists g, (forall x, snd lf x = map (map g) x) /\ (forall v, v == 0 -> g v == 0)%Q) ls ->
  batch_eq (residual_blocks ls h) h.
Proof. exact (@residual_zero). Qed.
Print Assumptions C104_zero_layers.
Theorem C104_width_mismatch : forall ps w v ws rate mask train acts l0 l1 d out r x,
  w <> v -> w <> 1 -> v <> 1 -> length (w :: v :: ws) = length acts -> Forall keeps_shape acts ->
  well_shaped l0 d w -> well_shaped l1 w v -> ps (Hidden 0) = Some l0 -> ps (Hidden 1) = Some l1 ->
  rows_of d (r :: x) ->
  deep_residual ps (w :: v :: ws) rate mask train acts out (r :: x) = Err TypeError.
Proof. exact (@residual_width_mismatch). Qed.
Print Assumptions C104_width_mismatch.

Example C104_case_eval : deep_residual res_ps [2; 2; 2] 0 no_mask false [shift_act; relu_act; relu_act] 1 [[3]]%Q = Ok [[26]]%Q.
Proof. vm_compute. reflexivity. Qed.
Example C104_case_broadcast : deep_residual wide_ps [2; 1] 0 no_mask false [relu_act; relu_act] 1 [[3]]%Q = Ok [[47]]%Q.
Proof. vm_compute. reflexivity. Qed.

(** ---- C105: convolutional networks ---- *)
Theorem C105_resnet_basic : forall nf sizes h w c, 1 <= nf -> 1 <= h -> 1 <= w ->
  resnet_features resnet_block nf sizes (h, w, c)
  = Ok (stages_projections 1 0 sizes, stages_shape 1 nf 0 sizes (half_up (half_up h), half_up (half_up w), nf)).
Proof. exact (@resnet_basic). Qed.
Print Assumptions C105_resnet_basic.
Theorem C105_resnet_bottleneck : forall nf sizes h w c, 1 <= nf -> 1 <= h -> 1 <= w ->
  resnet_features bottleneck_block nf sizes (h, w, c)
  = Ok (stages_projections 4 0 sizes, stages_shape 4 nf 0 sizes (half_up (half_up h), half_up (half_up w), nf)).
Proof. exact (@resnet_bottleneck). Qed.
Print Assumptions C105_resnet_bottleneck.
Theorem C105_resnet_basic_outputs : forall nf sizes out h w c, 1 <= nf -> 1 <= h -> 1 <= w -> Forall (fun n => 1 <= n) sizes -> sizes <> [] ->
  resnet resnet_block nf sizes out (h, w, c) = Ok ((nf * 2 ^ (length sizes - 1), out), out).
Proof. exact (@resnet_basic_outputs). Qed.
Print Assumptions C105_resnet_basic_outputs.
Theorem C105_resnet_bottleneck_outputs : forall nf sizes out h w c, 1 <= nf -> 1 <= h -> 1 <= w -> Forall (fun n => 1 <= n) sizes -> sizes <> [] ->
  resnet bottleneck_block nf sizes out (h, w, c) = Ok ((4 * nf * 2 ^ (length sizes - 1), out), out).
Proof. exact (@resnet_bottleneck_outputs). Qed.
Print Assumptions C105_resnet_bottleneck_outputs.
Theorem C105_wide_groups : forall depth widen h w c, 10 <= depth -> 
  exists n, (depth - 4) / 6 = S n /\
  wide_groups depth widen (h, w, c)
  = Ok ([negb (widen =? 1) :: repeat false n; true :: repeat false n; true :: repeat false n],
        (half_up (half_up h), half_up (half_up w), 64 * widen)).
Proof. exact (@wide_groups_ok). Qed.
Print Assumptions C105_wide_groups.
Theorem C105_wide_features : forall depth widen h w c, 10 <= depth ->
  wide_features depth widen (h, w, c)
  = Ok ((half_up (half_up h) - 7) * (half_up (half_up w) - 7) * (64 * widen)).
Proof. exact (@wide_features_ok). Qed.
Print Assumptions C105_wide_features.
Theorem C105_wide_minimum : forall depth widen h w c n, 10 <= depth -> 1 <= widen ->
  wide_features depth widen (h, w, c) = Ok n -> (0 < n <-> 29 <= h /\ 29 <= w).
Proof. exact (@wide_some_feature). Qed.
Print Assumptions C105_wide_minimum.
Theorem C105_wide_one_window : forall depth widen h w c, 10 <= depth -> 29 <= h <= 32 -> 29 <= w <= 32 ->
  wide_features depth widen (h, w, c) = Ok (64 * widen).
Proof. exact (@wide_one_window). Qed.
Print Assumptions C105_wide_one_window.
Theorem C105_wide_shallow : forall depth widen h w c, depth < 10 ->
  wide_features depth widen (h, w, c) = Ok ((h - 7) * (w - 7) * 16).
Proof. exact (@wide_shallow). Qed.
Print Assumptions C105_wide_shallow.
Theorem C105_lenet : forall h w c, lenet_flat (h, w, c) = ((h - 4) / 2 - 4) / 2 * (((w - 4) / 2 - 4) / 2) * 16.
Proof. exact (@lenet_flat_ok). Qed.
Print Assumptions C105_lenet.
Theorem C105_lenet_minimum : forall h w c, 0 < lenet_flat (h, w, c) <-> 16 <= h /\ 16 <= w.
Proof. exact (@lenet_some). Qed.
Print Assumptions C105_lenet_minimum.
Theorem C105_cnn : forall h w c, cnn_flat (h, w, c) = (h - 2) / 2 * ((w - 2) / 2) * 32.
Proof. exact (@cnn_flat_ok). Qed.
Print Assumptions C105_cnn.
Theorem C105_cnn_minimum : forall h w c, 0 < cnn_flat (h, w, c) <-> 4 <= h /\ 4 <= w.
Proof. exact (@cnn_some). Qed.
Print Assumptions C105_cnn_minimum.
(** C105: number of parameters (weights and biases) of the small convolutional network *)
Theorem C105_cnn_parameters : forall h w c output_dim,
  list_sum (map (fun k => fst k * snd k + snd k) (cnn_kernels output_dim (h, w, c))) =
  (9 * c + 1) * 32 + ((h - 2) / 2 * ((w - 2) / 2) * 32 + 1) * 128 + 129 * output_dim.
Proof. exact cnn_parameters. Qed.
Print Assumptions C105_cnn_parameters.
Example C105_case_cnn : cnn_kernels 10 (8, 8, 3) = [(27, 32); (288, 128); (128, 10)].
Proof. reflexivity. Qed.

Example C105_case_resnet50 : resnet_features bottleneck_block 64 [3; 4; 6; 3] (224, 224, 3)
  = Ok ([[true; false; false]; [true; false; false; false]; [true; false; false; false; false; false]; [true; false; false]], (7, 7, 2048)).
Proof. vm_compute. reflexivity. Qed.
Example C105_case_resnet18 : resnet resnet_block 64 [2; 2; 2; 2] 10 (32, 32, 3) = Ok ((512, 10), 10).
Proof. vm_compute. reflexivity. Qed.
Example C105_case_wide : wide_features 28 10 (32, 32, 3) = Ok 640 /\ wide_features 28 10 (28, 28, 1) = Ok 0 /\ wide_features 28 10 (40, 40, 3) = Ok 5760.
Proof. vm_compute. auto. Qed.
Example C105_case_lenet : lenet_kernels 10 (32, 32, 1) = [(25, 6); (150, 16); (400, 120); (120, 84); (84, 10)].
Proof. vm_compute. reflexivity. Qed.

(** ---- C106: constant, hyperparameter and linear models ---- *)
Theorem C106_constant : forall {X} (c : list Q) (x : list X) i, i < length x -> nth_error (constant_model c x) i = Some c.
Proof. exact (@constant_spec). Qed.
Print Assumptions C106_constant.
Theorem C106_constant_inputs : forall {X Y} (c : list Q) (x : list X) (y : list Y), length x = length y ->
  constant_model c x = constant_model c y.
Proof. exact (@constant_inputs). Qed.
Print Assumptions C106_constant_inputs.
Theorem C106_scalar : forall {X} (s : Q) out (x : list X) i, i < length x ->
  nth_error (scalar_constant_model s out x) i = Some (repeat s out).
Proof. exact (@scalar_constant_spec). Qed.
Print Assumptions C106_scalar.
Theorem C106_hyper : forall {X} ndim value dummy dummy' (x : list X),
  hyper_model ndim value dummy x = hyper_model ndim value dummy' x
  /\ (hyper_model ndim value dummy x = Ok (constant_model value x) <-> ndim = 1)
  /\ (ndim <> 1 -> hyper_model ndim value dummy x = Err ValueError).
Proof. exact (@hyper_spec). Qed.
Print Assumptions C106_hyper.
Theorem C106_scalar_hyper : forall {X} is_float value out dummy dummy' (x : list X),
  scalar_hyper_model is_float value out dummy x = scalar_hyper_model is_float value out dummy' x
  /\ (is_float = true -> scalar_hyper_model is_float value out dummy x = Ok (constant_model (repeat value out) x))
  /\ (is_float = false -> scalar_hyper_model is_float value out dummy x = Err ValueError).
Proof. exact (@scalar_hyper_spec). Qed.
Print Assumptions C106_scalar_hyper.
Theorem C106_linear : forall ps last d out x, ps Last = Some last -> well_shaped last d out -> rows_of d x ->
  linear_model ps out x = Ok (map (affine last) x).
Proof. exact (@linear_spec). Qed.
Print Assumptions C106_linear.
Example C106_case_hypotheses : exists last, unit_ps Last = Some last /\ well_shaped last 1 1 /\ rows_of 1 [[7]; [9]]%Q.
Proof. eexists. split; [reflexivity|]. unfold well_shaped. cbn. repeat split; repeat constructor. Qed.

Example C106_case_constant : constant_model [1; 2]%Q [tt; tt] = [[1; 2]; [1; 2]]%Q.
Proof. reflexivity. Qed.
Example C106_case_hyper : hyper_model 2 [1; 2]%Q [] [tt] = Err ValueError /\ scalar_hyper_model true (3 # 2) 2 [] [tt] = Ok [[3 # 2; 3 # 2]].
Proof. split; reflexivity. Qed.
Example C106_case_linear : linear_model unit_ps 1 [[7]; [9]]%Q = Ok [[7]; [9]]%Q.
Proof. vm_compute. reflexivity. Qed.
