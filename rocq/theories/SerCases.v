(** Toy states used by the examples of SerProps.v: arrays are numbers, the state of an optimizer
    counts its steps and keeps a copy of the parameters. *)
From Coq Require Import List Arith String.
From Verif Require Import Lib NestedModel NestedProofs SerModel SerSpec.
Import ListNotations.
Local Open Scope string_scope.

Definition toy_opt (o : nat) (params : pv nat) : pv nat := PSeq [PNum o; params].
Definition toy_params : pv nat := PMap true [("model", PMap false [("w", PArr 3); ("b", PArr 4)])].
Definition toy_calib : pv nat := PMap true [("output_calibrator", PNone)].
Definition toy_new (c : cls) : result (option (state nat nat)) :=
  init toy_opt c (Some 9) ([("params", toy_params); ("mutable", toy_calib)]
    ++ match c with OutputCalibC => [] | _ => [("calib_params", PNone); ("calib_mutable", PNone)] end)%list.
Definition toy_state (c : cls) : state nat nat := match toy_new c with Ok (Some s) => s | _ => mk_state c [] None end.
(** in the middle of training, with half precision *)
Definition toy_scaled : state nat nat :=
  match replace (toy_state MapC) [("step", PNum 5); ("dynamic_scale", PObj "DynamicScale" [("scale", PArr 1)]); ("grad_accumulated", toy_params)] with
  | Ok s => s | Err _ => toy_state MapC end.

Lemma toy_scaled_whole : whole_state toy_scaled.
Proof.
  constructor.
  - reflexivity.
  - eexists. split; [reflexivity|]. eexists _, _. reflexivity.
  - intros k I. cbn in I. destruct I as [<-|[<-|[<-|[]]]]; (eexists; split; [reflexivity|]); [right; eexists _, _; reflexivity|left; reflexivity|left; reflexivity].
  - intros k v F. apply get_in in F. apply (in_map snd) in F. cbn in F.
    repeat (destruct F as [<-|F]; [repeat (constructor; cbn; try (intuition discriminate))|]). destruct F.
Qed.
