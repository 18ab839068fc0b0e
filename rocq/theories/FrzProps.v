(** Properties of frozen optimizers (C149). *)
From Coq Require Import List ZArith String.
From Verif Require Import Lib NestedModel FreezeModel FrzModel FrzSpec FrzProofs FrzCases.
Import ListNotations.
Open Scope list_scope.
Local Notation length := List.length.

(** C149: training with a frozen optimizer is training of the trainable parameters alone *)
Theorem C149_frozen : forall V zero add (opt : optimizer V) f params frozen gs j, (forall v, add v zero = v) ->
  freeze_optimizer zero params opt (Some f) = Ok frozen ->
  (forall us s ps, length (fst (o_update opt us s ps)) = length us) -> (forall g, In g gs -> forall ps, length (g ps) = length ps) ->
  nth_error (labels_of f params) j = Some "frozen"%string ->
  nth_error (fst (run add frozen (map snd (leaves params)) gs)) j = nth_error (map snd (leaves params)) j.
Proof. exact (@frozen_unchanged). Qed.
Print Assumptions C149_frozen.
Theorem C149_trainable : forall V zero add (opt : optimizer V) f params frozen gs, (forall v, add v zero = v) ->
  freeze_optimizer zero params opt (Some f) = Ok frozen ->
  (forall us s ps, length (fst (o_update opt us s ps)) = length us) -> (forall g, In g gs -> forall ps, length (g ps) = length ps) ->
  let ls := labels_of f params in let vs := map snd (leaves params) in
  let alone := map (fun g tr => part "trainable" ls (g (with_trainable ls tr vs))) gs in
  fst (run add frozen vs gs) = with_trainable ls (fst (run add opt (part "trainable" ls vs) alone)) vs.
Proof. exact (@frozen_run). Qed.
Print Assumptions C149_trainable.
Theorem C149_labels : forall V zero (opt : optimizer V) f params,
  (exists o, freeze_optimizer zero params opt (Some f) = Ok o) /\ (forall p v, In (p, v) (leaves params) -> f p v = "trainable" \/ f p v = "frozen")%string \/
  freeze_optimizer zero params opt (Some f) = Err ValueError /\ (exists p v, In (p, v) (leaves params) /\ f p v <> "trainable" /\ f p v <> "frozen")%string.
Proof. exact (@freeze_labels). Qed.
Print Assumptions C149_labels.
Theorem C149_no_function : forall V zero (opt : optimizer V) params, freeze_optimizer zero params opt None = Ok opt.
Proof. exact (@freeze_nothing). Qed.
Print Assumptions C149_no_function.
Example C149_case : let g := fun ps => [1%Z; 100%Z] in
  match freeze_optimizer 0%Z two_layers clipping (Some freeze_b) with
  | Ok o => fst (run Z.add o [3%Z; 7%Z] [g; g]) = [1%Z; 7%Z] /\ fst (run Z.add clipping [3%Z; 7%Z] [g; g]) = [(-17)%Z; (-13)%Z]
  | Err _ => False
  end /\ freeze_optimizer 0%Z two_layers clipping (Some misspelt) = Err ValueError.
Proof. vm_compute. repeat split. Qed.
