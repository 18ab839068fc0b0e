(** Errors of the fits of ensembles and chains, and where a chain's own checkpoints are. *)
From Coq Require Import List Arith Lia Bool String.
From Verif Require Import Lib NestedModel RepoModel RepoSpec FitModel FitSpec FitProofs FitProofs2 FitProofs3 FitProofs4.
Import ListNotations.
Open Scope list_scope.
Local Notation length := List.length.

Lemma fine_config (ck : checkpointer) : k_dump ck = false \/ k_save ck <> None -> bad_config ck = false.
Proof. intros B. unfold bad_config. destruct (k_dump ck); [|reflexivity]. destruct (k_save ck); [reflexivity|]. destruct B; congruence. Qed.
Lemma ens_errors : forall V O (init : O -> tree V -> V) ck o size fresh train (w : fs V) (p : option (list (repo V O))) keep d,
  (k_dump ck = true -> k_save ck = None -> ens_fit init ck o size fresh train w p = (Err ValueError, (w, p))) /\
  (k_dump ck = false \/ k_save ck <> None -> 1 <= size -> k_restore ck = Some d -> empty_dir (d ++ "/0")%string w -> fst (ens_fit init ck o size fresh train w p) = Err ValueError) /\
  (empty_dir (d ++ "/0")%string w -> ens_load init size d w p = (Err ValueError, p)) /\
  (p = None -> ens_save init size d keep w p = (Err AttributeError, (w, None)) /\ forall j, sample_member init w p j = Err AttributeError).
Proof.
  intros V O init ck o size fresh train w p keep d. split; [|split; [|split]].
  - intros D S. unfold ens_fit, bad_config. now rewrite D, S.
  - intros B N R M. unfold ens_fit. rewrite (fine_config ck B). destruct size as [|size]; [lia|]. cbn [seq ens_loop]. unfold ens_member, ens_start. rewrite R.
    unfold restore. change (member_dir d 0) with (d ++ "/0")%string. now rewrite M.
  - intros M. unfold ens_load, restore. change (member_dir d 0) with (d ++ "/0")%string. now rewrite M.
  - intros ->. split; reflexivity.
Qed.
Lemma chain_errors : forall V O (init : O -> tree V -> V) ck o size ok fresh train (w : fs V) (p : option (list (repo V O))) d,
  (k_dump ck = true -> k_save ck = None -> chain_fit init ck o size ok fresh train w p = (Err ValueError, (w, p))) /\
  (k_dump ck = false \/ k_save ck <> None ->
   (k_restore ck = Some d -> empty_dir (d ++ "/c")%string w -> chain_fit init ck o size ok fresh train w p = (Err ValueError, (w, p))) /\
   (k_restore ck = None -> k_current ck = true -> p = None -> chain_fit init ck o size ok fresh train w p = (Err AttributeError, (w, p)))) /\
  (empty_dir (d ++ "/c")%string w -> chain_load init size d w p = (Err ValueError, p)).
Proof.
  intros V O init ck o size ok fresh train w p d. split; [|split].
  - intros D S. unfold chain_fit, bad_config. now rewrite D, S.
  - intros B. unfold chain_fit. rewrite (fine_config ck B). unfold chain_start. split.
    + intros -> M. unfold restore. change (chain_dir d) with (d ++ "/c")%string. now rewrite M.
    + intros -> -> ->. reflexivity.
  - intros M. unfold chain_load, restore. change (chain_dir d) with (d ++ "/c")%string. now rewrite M.
Qed.
(** the directory c gives the last state of the chain *)
Lemma chain_checkpoint : forall V O (init : O -> tree V -> V) ck o size ok fresh train (w w' : fs V) p p' s d, ordered w ->
  chain_fit init ck o size ok fresh train w p = (Ok s, (w', p')) -> k_save ck = Some d ->
  exists t, restore init (d ++ "/c")%string None w' = Ok t /\ joint_of t = joint_of s /\ s_step t = s_step s.
Proof.
  intros V O init ck o size ok fresh train w w' p p' s d H E K. destruct (chain_fit_ok init ck o size ok fresh train w w' p p' s H E) as (s0 & rs & _ & _ & _ & _ & _ & _ & _ & C).
  specialize (C d K). unfold restore. change (d ++ "/c")%string with (chain_dir d). rewrite C. eexists. split; [reflexivity|]. split; reflexivity.
Qed.
