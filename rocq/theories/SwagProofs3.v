(** Whole fits of SWAG posteriors. *)
From Coq Require Import List Arith ZArith QArith Bool String Lia Lqa.
From Verif Require Import Lib QuantModel ConfRegModel ConfRegProofs PredModel LikModel CalibModel TrainModel TrainSpec TrainProofs TrainProofs2 TrainProofs3 TrainProofs4 McmcModel DescModel DescSpec DescProofs DescProofs2 DescProofs3 SwagModel SwagSpec SwagProofs SwagProofs2.
Import ListNotations.
Open Scope list_scope.
Local Notation length := List.length.

Lemma zip_nth {A C} (f : option A -> Q -> C) d : forall st l, length st = d -> length l = d -> zip_with f st l = map (fun j => f (nth j st None) (nth j l 0%Q)) (seq 0 d).
Proof.
  induction d as [|d IH]; intros [|a st] [|q l] H1 H2; cbn in H1, H2; try discriminate; [reflexivity|]. rewrite zip_cons. cbn [seq map nth]. f_equal. rewrite (IH st l) by lia. rewrite <- seq_shift, map_map. reflexivity.
Qed.
Lemma fold_left_ext_in {A C} (f g : A -> C -> A) : forall l a, (forall a x, In x l -> f a x = g a x) -> fold_left f l a = fold_left g l a.
Proof. induction l as [|x l IH]; intros a H; [reflexivity|]. cbn. rewrite H by (left; reflexivity). apply IH. intros; apply H; now right. Qed.
Lemma times_right {A} n (f : A -> A) : forall x, times (S n) f x = f (times n f x).
Proof. induction n as [|n IH]; intros x; [reflexivity|]. change (times (S (S n)) f x) with (times (S n) f (f x)). rewrite IH. reflexivity. Qed.

Section Fit.
Variables P M X T O K G OS Pr Un : Type.
Variable predict : O -> Pr.
Variable fold_in : nat -> K.
Variable diff : (P -> Q) -> P -> G.
Variable gadd : G -> G -> G.
Variable gdiv : G -> nat -> G.
Variable zeros_like : G -> G.
Variable clip_by : Q -> G -> G.
Variable opt : G -> OS -> P -> P * OS.
Variable ravel : P -> list Q.
Notation tst := (tstate P OS G (option M)).
Notation FIT := (fit P M X T O K G OS Pr Un predict fold_in diff gadd gdiv zeros_like clip_by opt).
Notation SWAG := (swag_fit P M X T O K G OS Pr Un predict fold_in diff gadd gdiv zeros_like clip_by opt ravel).

Theorem swag_is_map : forall rank h (c : setting P M X T O K Pr Un) monitor cfg bs vs s,
  (2 <= rank < n_epochs cfg)%nat ->
  rmap (fun r => let '(s', _, ms, mvs) := r in (s', ms, mvs)) (SWAG rank h c monitor cfg bs vs s)
  = FIT FitMAP {| h_norm := None; h_accumulation := None |} c monitor
      {| accumulation := accumulation cfg; n_epochs := n_epochs cfg; eval_every := eval_every cfg; save_dir := save_dir cfg; save_every := save_every cfg;
         stop_config := {| patience := Some 0%Z; mode := Some "min"%string; min_delta := 0 |} |} bs vs s.
Proof.
  intros rank h c monitor cfg bs vs s HR. unfold swag_fit, fit. cbn [run_kwargs or_zero h_accumulation h_norm TrainModel.n_epochs TrainModel.eval_every TrainModel.save_dir TrainModel.save_every TrainModel.stop_config].
  unfold swag_checks. rewrite (proj2 (Nat.ltb_ge rank 2)) by lia. rewrite (proj2 (Nat.leb_gt (n_epochs cfg) rank)) by lia. cbn [bind].
  set (cfg' := {| accumulation := 0 |}).
  pose proof (train_sim (sw_state P M G OS) (result tst) (X * list T) (X * list T) (@w_state P M G OS) (sw_step_no P M G OS) (fun s => match s with Ok s => step s | Err _ => 0%nat end)
    (sw_step P M X T O K G OS Pr Un predict fold_in diff gadd gdiv zeros_like clip_by opt ravel rank c 0 0)
    (fit_step P M X T O K G OS Pr Un predict fold_in diff gadd gdiv zeros_like clip_by opt c 0 0)
    (fun s => fit_validation P M X T O K G OS Pr Un predict c (w_state P M G OS s)) (fit_validation P M X T O K G OS Pr Un predict c)
    (fun s => s) (fun s => s) (sw_next_epoch P M G OS) (fun s => s) (fun s => s) (fun s => s) monitor) as Z.
  specialize (Z ltac:(reflexivity)).
  assert (HS : forall s b k, w_state P M G OS (fst (sw_step P M X T O K G OS Pr Un predict fold_in diff gadd gdiv zeros_like clip_by opt ravel rank c 0 0 s b k)) = fst (fit_step P M X T O K G OS Pr Un predict fold_in diff gadd gdiv zeros_like clip_by opt c 0 0 (w_state P M G OS s) b k)
    /\ snd (sw_step P M X T O K G OS Pr Un predict fold_in diff gadd gdiv zeros_like clip_by opt ravel rank c 0 0 s b k) = snd (fit_step P M X T O K G OS Pr Un predict fold_in diff gadd gdiv zeros_like clip_by opt c 0 0 (w_state P M G OS s) b k)).
  { intros x b k. unfold sw_step. destruct (fit_step _ _ _ _ _ _ _ _ _ _ _ _ _ _ _ _ _ _ _ _ _ _ _ _); split; reflexivity. }
  specialize (Z HS ltac:(reflexivity) ltac:(reflexivity) ltac:(reflexivity) ltac:(reflexivity) cfg' bs vs {| es := stopping0; gstep := 0; saved := [] |} (sw_init P M G OS ravel s)).
  unfold tmap in Z. cbn [es gstep saved map] in Z. change (w_state P M G OS (sw_init P M G OS ravel s)) with (@Ok tst s) in Z. rewrite Z.
  destruct (train (sw_step_no P M G OS) _ _ _ _ _ _ _ _ _ _ _) as [[[[t1 s1] ms1] mvs1]|]; [|reflexivity]. cbn [bind rmap]. destruct (w_state P M G OS s1); reflexivity.
Qed.
End Fit.
