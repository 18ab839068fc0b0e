(** Batches over devices. *)
From Coq Require Import List Arith Lia.
From Verif Require Import Lib LoaderModel LoaderSpec LoaderProofs LoaderProofs2 DevModel DevProofs4.
Import ListNotations.
Lemma device_batch_ok : forall A d (leaves : list (list A)), 1 <= d -> Forall (fun l => length l mod d = 0) leaves ->
  exists out, add_device_dim d leaves = Ok out /\
  Forall2 (fun l sh => length sh = d /\ concat sh = l /\ Forall (fun s => length s * d = length l) sh) leaves out.
Proof.
  intros A d leaves Hd. unfold add_device_dim. induction leaves as [|l leaves IH]; intros F; [exists []; split; [reflexivity|constructor]|].
  inversion F; subst. destruct (IH H2) as [out [E G]]. destruct (reshape_shards A d l Hd H1) as [sh [Es Hs]].
  exists (sh :: out). split; [cbn [mapM]; rewrite Es; cbn [bind]; rewrite E; reflexivity|constructor; assumption].
Qed.
Lemma device_batch_err : forall A d (leaves : list (list A)), Exists (fun l => length l mod d <> 0) leaves -> add_device_dim d leaves = Err ValueError.
Proof.
  intros A d leaves. unfold add_device_dim. induction leaves as [|l leaves IH]; intros F; [inversion F|]. cbn [mapM].
  destruct (Nat.eq_dec (length l mod d) 0) as [Z|Z]; [|rewrite reshape_devices_err by exact Z; reflexivity].
  unfold reshape_devices at 1. rewrite Z. cbn [Nat.eqb negb bind]. rewrite IH; [reflexivity|]. inversion F; subst; [congruence|assumption].
Qed.
