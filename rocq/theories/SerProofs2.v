(** Proofs about SerModel.v: saving and restoring *)
From Coq Require Import List Arith Lia Bool String Permutation.
From Verif Require Import Lib NestedModel NestedProofs NestedProofs2 FlatProofs SerModel SerSpec SerProofs.
Import ListNotations.
Local Notation length := List.length.
Local Open Scope string_scope.

Section Restore.
Context {A O : Type}.
Variable opt_init : O -> pv A -> pv A.
Implicit Types s t : state A O.

Lemma get_without k l (d : list (string * pv A)) : assoc_get k (without l d) = if mem k l then None else assoc_get k d.
Proof.
  induction d as [|[k' v] d IH]; [now destruct (mem k l)|]. unfold without in *. cbn [filter fst assoc_get].
  destruct (mem k' l) eqn:M; cbn [negb].
  - rewrite IH. destruct (mem k l) eqn:M2; [reflexivity|]. destruct (String.eqb_spec k k') as [->|]; [congruence|reflexivity].
  - cbn [assoc_get]. destruct (String.eqb_spec k k') as [->|]; [now rewrite M|exact IH].
Qed.
Lemma get_fun {X Y} (g : string -> X -> Y) (l : list (string * X)) k :
  assoc_get k (map (fun kv => (fst kv, g (fst kv) (snd kv))) l) = option_map (g k) (assoc_get k l).
Proof.
  induction l as [|[k' x] l IH]; [reflexivity|]. cbn. destruct (String.eqb_spec k k') as [->|]; [reflexivity|exact IH].
Qed.
Definition saved (k : string) (v : pv A) : pv A := if String.eqb k "grad_accumulated" then PNone else to_state_dict v.
Lemma get_save s k : assoc_get k (save s) = option_map (saved k) (field k s).
Proof. unfold save. apply (get_fun saved). Qed.
Lemma keys_save s : map fst (save s) = map fst (s_fields s).
Proof. unfold save. now rewrite map_map. Qed.
Lemma get_some {X} k (l : list (string * X)) : In k (map fst l) -> exists v, assoc_get k l = Some v.
Proof.
  induction l as [|[k' x] l IH]; [intros []|]. cbn. intros [->|I]; [rewrite String.eqb_refl; eauto|]. destruct (String.eqb k k'); eauto.
Qed.
Lemma fields_nodup c : NoDup (map fst (@fields A c)).
Proof. destruct c; cbn; repeat constructor; cbn; intuition discriminate. Qed.
Lemma has_field_in c k : @has_field A c k = true <-> In k (map fst (@fields A c)).
Proof.
  unfold has_field. rewrite existsb_exists. split.
  - intros (x & I & E). apply String.eqb_eq in E. now subst.
  - intros I. exists k. split; [exact I|apply String.eqb_refl].
Qed.

(** two lists with the same keys *)
Lemma same_lists {X Y Z} (g : string -> X -> Z) (h : string -> Y -> Z) (l : list (string * X)) (m : list (string * Y)) :
  map fst l = map fst m -> NoDup (map fst l) ->
  (forall k x y, assoc_get k l = Some x -> assoc_get k m = Some y -> g k x = h k y) ->
  map (fun kv => (fst kv, g (fst kv) (snd kv))) l = map (fun kv => (fst kv, h (fst kv) (snd kv))) m.
Proof.
  revert m. induction l as [|[k x] l IH]; intros [|[k' y] m] E N H; try discriminate; [reflexivity|].
  cbn [map fst snd] in *. injection E as E1 E2. subst k'. inversion N as [|? ? NI N']; subst. f_equal.
  - f_equal. apply H; cbn; now rewrite String.eqb_refl.
  - apply IH; [exact E2|exact N'|]. intros k2 x2 y2 G1 G2. apply H; cbn.
    + destruct (String.eqb_spec k2 k) as [->|]; [|exact G1]. exfalso. apply NI. apply get_in in G1. apply (in_map fst) in G1. exact G1.
    + destruct (String.eqb_spec k2 k) as [->|]; [|exact G2]. exfalso. apply NI. rewrite E2. apply get_in in G2. apply (in_map fst) in G2. exact G2.
Qed.

Definition four : list string := ["params"; "mutable"; "calib_params"; "calib_mutable"].
(** the value of a field after restoring *)
Definition restored (o : option O) s (k : string) (v : pv A) : pv A :=
  if mem k four then frozen (to_state_dict v)
  else if String.eqb k "opt_state" then
    match o, field "params" s with Some o, Some p => opt_init o (frozen (to_state_dict p)) | _, _ => to_state_dict v end
  else saved k v.
Definition restored_state (o : option O) s : state A O :=
  mk_state (s_cls s) (map (fun kv => (fst kv, restored o s (fst kv) (snd kv))) (s_fields s)) o.

Lemma names_eq c : map fst (@fields A c) = field_names c.
Proof. destruct c; reflexivity. Qed.
Lemma whole_fields' s : whole_state s -> map fst (s_fields s) = map fst (@fields A (s_cls s)).
Proof. intros W. rewrite names_eq. apply (whole_fields _ _ _ W). Qed.
Lemma whole_field s k : whole_state s -> In k (map fst (@fields A (s_cls s))) -> exists v, field k s = Some v.
Proof. intros W I. apply get_some. now rewrite (whole_fields' _ W). Qed.
Lemma base_in c k : In k ["step"; "params"; "opt_state"; "encoded_name"; "frozen_params"; "dynamic_scale"] -> In k (map fst (@fields A c)).
Proof. intros I. unfold fields. rewrite map_app. apply in_or_app. left. exact I. Qed.

Lemma filter_all {X} (f : X -> bool) l : forallb f l = true -> filter f l = l.
Proof. induction l as [|x l IH]; [reflexivity|]. cbn. intros H. apply andb_prop in H. destruct H as [-> H]. now rewrite IH. Qed.

(** the call of the constructor *)
Lemma construct_full c (kw : list (string * pv A)) (o : option O) :
  (forall k, In k (map fst kw) -> In k (map fst (@fields A c))) ->
  construct c kw o = Ok (mk_state c (map (fun kv => (fst kv, get_or (fst kv) (snd kv) kw)) (fields c)) o).
Proof.
  intros H. unfold construct. replace (forallb _ kw) with true; [reflexivity|]. symmetry. apply forallb_forall. intros [k v] I.
  apply has_field_in, H. now apply (in_map fst) in I.
Qed.
Lemma keys_without l (d : list (string * pv A)) k : In k (map fst (without l d)) -> In k (map fst d).
Proof. unfold without. rewrite !in_map_iff. intros (x & E & I). apply filter_In in I. exists x. tauto. Qed.

Lemma init_save s (c : cls) o kw :
  whole_state s -> s_cls s = c -> c <> TrainC ->
  (forall k, In k (map fst kw) -> In k (map fst (@fields A c))) ->
  (forall k v, field k s = Some v -> assoc_get k kw = Some (if mem k (if match c with OutputCalibC => true | _ => false end then ["params"; "mutable"] else four) then frozen (to_state_dict v) else saved k v)) ->
  (c = OutputCalibC -> forall k, In k ["calib_params"; "calib_mutable"] -> field k s = None) ->
  init opt_init c o kw = Ok (Some (restored_state o s)).
Proof.
  intros W EC NT K G OC. unfold init.
  destruct (whole_params _ _ _ W) as (p & Fp & Dp).
  destruct (whole_field s "opt_state" W) as (os & Fos); [apply base_in; cbn; tauto|].
  destruct (whole_field s "step" W) as (st & Fst); [apply base_in; cbn; tauto|].
  assert (Gp : assoc_get "params" kw = Some (frozen (to_state_dict p))) by (rewrite (G _ _ Fp); now destruct c).
  assert (Gos : assoc_get "opt_state" kw = Some (to_state_dict os)) by (rewrite (G _ _ Fos); now destruct c).
  assert (Gst : assoc_get "step" kw = Some (to_state_dict st)) by (rewrite (G _ _ Fst); now destruct c).
  set (osv := match o with Some o => opt_init o (frozen (to_state_dict p)) | None => to_state_dict os end).
  set (rest := without ["opt_state"; "apply_fn"; "tx"; "step"] kw).
  assert (R : filter (fun kv => @has_field A c (fst kv)) rest = rest).
  { apply filter_all, forallb_forall. intros [k v] I. apply has_field_in, K, (keys_without ["opt_state"; "apply_fn"; "tx"; "step"]). now apply (in_map fst) in I. }
  assert (M : rmap Some (construct c (("opt_state", osv) :: ("step", get_or "step" (PNum 0) kw) :: rest) o) = Ok (Some (restored_state o s))).
  { rewrite construct_full.
    - cbn [rmap bind]. do 2 f_equal. unfold restored_state. rewrite EC. f_equal. 
      apply (same_lists (fun k v => get_or k v (("opt_state", osv) :: ("step", get_or "step" (PNum 0) kw) :: rest)) (restored o s)).
      + rewrite <- EC. symmetry. apply (whole_fields' _ W).
      + apply fields_nodup.
      + intros k x y _ Gy. change (field k s = Some y) in Gy. unfold get_or at 1. cbn [assoc_get]. unfold restored.
        destruct (String.eqb_spec k "opt_state") as [->|N1].
        * cbn [mem four existsb String.eqb orb]. rewrite Fp. assert (y = os) by congruence. subst y. now destruct o.
        * destruct (String.eqb_spec k "step") as [->|N2].
          -- unfold get_or. rewrite Gst. assert (y = st) by congruence. now subst y.
          -- unfold rest. rewrite get_without. replace (mem k ["opt_state"; "apply_fn"; "tx"; "step"]) with false.
             ++ rewrite (G k y Gy). destruct c; try reflexivity. cbn [four]. unfold mem. cbn [existsb four].
                destruct (String.eqb_spec k "params"); [reflexivity|]. destruct (String.eqb_spec k "mutable"); [reflexivity|].
                destruct (String.eqb_spec k "calib_params") as [->|]; [rewrite (OC eq_refl "calib_params") in Gy by (cbn; tauto); discriminate|].
                destruct (String.eqb_spec k "calib_mutable") as [->|]; [rewrite (OC eq_refl "calib_mutable") in Gy by (cbn; tauto); discriminate|]. reflexivity.
             ++ symmetry. unfold mem. cbn [existsb].
                assert (I : In k (map fst (@fields A c))) by (rewrite <- EC, <- (whole_fields' _ W); apply get_in in Gy; now apply (in_map fst) in Gy).
                destruct (String.eqb_spec k "opt_state"); [contradiction|]. destruct (String.eqb_spec k "step"); [contradiction|].
                destruct (String.eqb_spec k "apply_fn") as [->|]; [exfalso; destruct c; cbn in I; intuition discriminate|].
                destruct (String.eqb_spec k "tx") as [->|]; [exfalso; destruct c; cbn in I; intuition discriminate|]. reflexivity.
    - intros k. cbn [map fst In]. intros [<-|[<-|I]]; [apply base_in; cbn; tauto|apply base_in; cbn; tauto|]. apply K. now apply keys_without in I. }
  rewrite Gp, Gos.
  assert (Z : (match o, Some (to_state_dict os) with None, Some v => Ok v | Some o, _ => Ok (opt_init o (frozen (to_state_dict p))) | None, None => match c with OutputCalibC => Ok PNone | _ => Err AttributeError end end) = Ok osv) by now destruct o.
  destruct c; try contradiction; rewrite Z; cbn [bind]; fold rest; rewrite ?R; exact M.
Qed.

Lemma item_save s k v : field k s = Some v -> k <> "grad_accumulated" -> item k (save s) = Ok (to_state_dict v).
Proof. intros F N. unfold item. rewrite get_save, F. cbn [option_map]. unfold saved. destruct (String.eqb_spec k "grad_accumulated"); [contradiction|reflexivity]. Qed.

Lemma from_dict_four s o : whole_state s -> s_cls s <> TrainC -> s_cls s <> OutputCalibC ->
  init_from_dict opt_init (s_cls s) (save s) o = Ok (Some (restored_state o s)).
Proof.
  intros W NT NO. destruct (whole_params _ _ _ W) as (p & Fp & Dp).
  assert (C : forall k, In k ["mutable"; "calib_params"; "calib_mutable"] -> exists v, field k s = Some v /\ (v = PNone \/ is_dict v)).
  { intros k I. apply (whole_collections _ _ _ W). destruct (s_cls s); try contradiction; exact I. }
  destruct (C "mutable") as (m & Fm & Dm); [cbn; tauto|]. destruct (C "calib_params") as (cp & Fc & Dc); [cbn; tauto|].
  destruct (C "calib_mutable") as (cm & Fd & Dd); [cbn; tauto|].
  assert (E : init_from_dict opt_init (s_cls s) (save s) o =
    init opt_init (s_cls s) o (("params", frozen (to_state_dict p)) :: ("mutable", frozen (to_state_dict m))
        :: ("calib_params", frozen (to_state_dict cp)) :: ("calib_mutable", frozen (to_state_dict cm))
        :: without ["params"; "mutable"; "optimizer"; "calib_params"; "calib_mutable"] (save s))).
  { unfold init_from_dict. rewrite (item_save s _ _ Fp), (item_save s _ _ Fm), (item_save s _ _ Fc), (item_save s _ _ Fd) by discriminate.
    cbn [bind]. rewrite (freeze_dict p Dp). cbn [bind]. rewrite (freeze_optional m Dm). cbn [bind]. rewrite (freeze_optional cp Dc). cbn [bind].
    rewrite (freeze_optional cm Dd). cbn [bind]. destruct (s_cls s); try contradiction; reflexivity. }
  rewrite E. clear E. apply init_save; [exact W|reflexivity|exact NT| | |intros; contradiction].
  - intros k. cbn [map fst In]. rewrite <- (whole_fields' _ W).
    assert (Q : forall k v, field k s = Some v -> In k (map fst (s_fields s))) by (intros k' v F; apply get_in in F; now apply (in_map fst) in F).
    intros [<-|[<-|[<-|[<-|I]]]]; eauto. apply keys_without in I. now rewrite keys_save in I.
  - intros k v F. replace (if match s_cls s with OutputCalibC => true | _ => false end then ["params"; "mutable"] else four) with four by (destruct (s_cls s); try contradiction; reflexivity).
    cbn [assoc_get]. unfold mem, four. cbn [existsb].
    destruct (String.eqb_spec k "params") as [->|N1]; [cbn; congruence|]. destruct (String.eqb_spec k "mutable") as [->|N2]; [cbn; congruence|].
    destruct (String.eqb_spec k "calib_params") as [->|N3]; [cbn; congruence|]. destruct (String.eqb_spec k "calib_mutable") as [->|N4]; [cbn; congruence|].
    cbn [orb]. rewrite get_without, get_save, F. replace (mem k _) with false; [reflexivity|]. symmetry. unfold mem. cbn [existsb].
    destruct (String.eqb_spec k "params"); [contradiction|]. destruct (String.eqb_spec k "mutable"); [contradiction|].
    destruct (String.eqb_spec k "calib_params"); [contradiction|]. destruct (String.eqb_spec k "calib_mutable"); [contradiction|].
    destruct (String.eqb_spec k "optimizer") as [->|]; [|reflexivity]. exfalso.
    assert (I : In "optimizer" (map fst (@fields A (s_cls s)))) by (rewrite <- (whole_fields' _ W); apply get_in in F; now apply (in_map fst) in F).
    destruct (s_cls s); cbn in I; intuition discriminate.
Qed.

Lemma from_dict_output s o : whole_state s -> s_cls s = OutputCalibC -> (exists m, field "mutable" s = Some m /\ is_dict m) ->
  init_from_dict opt_init OutputCalibC (save s) o = Ok (Some (restored_state o s)).
Proof.
  intros W EC (m & Fm & Dm). destruct (whole_params _ _ _ W) as (p & Fp & Dp).
  assert (NF : forall k, ~ In k (map fst (@fields A OutputCalibC)) -> field k s = None).
  { intros k N. destruct (field k s) as [v|] eqn:F; [|reflexivity]. exfalso. apply N. rewrite <- EC, <- (whole_fields' _ W). apply get_in in F. now apply (in_map fst) in F. }
  assert (E : init_from_dict opt_init OutputCalibC (save s) o =
    init opt_init OutputCalibC o (("params", frozen (to_state_dict p)) :: ("mutable", frozen (to_state_dict m)) :: without ["params"; "mutable"; "optimizer"] (save s))).
  { unfold init_from_dict. rewrite (item_save s _ _ Fp), (item_save s _ _ Fm) by discriminate. cbn [bind]. rewrite (freeze_dict p Dp). cbn [bind].
    rewrite (freeze_dict m Dm). reflexivity. }
  rewrite E. clear E. apply init_save; [exact W|exact EC|discriminate| | |].
  - intros k. cbn [map fst In]. rewrite <- EC, <- (whole_fields' _ W).
    assert (Q : forall k v, field k s = Some v -> In k (map fst (s_fields s))) by (intros k' v F; apply get_in in F; now apply (in_map fst) in F).
    intros [<-|[<-|I]]; eauto. apply keys_without in I. now rewrite keys_save in I.
  - intros k v F. cbn [assoc_get]. unfold mem. cbn [existsb].
    destruct (String.eqb_spec k "params") as [->|N1]; [cbn; congruence|]. destruct (String.eqb_spec k "mutable") as [->|N2]; [cbn; congruence|].
    cbn [orb]. rewrite get_without, get_save, F. replace (mem k _) with false; [reflexivity|]. symmetry. unfold mem. cbn [existsb].
    destruct (String.eqb_spec k "params"); [contradiction|]. destruct (String.eqb_spec k "mutable"); [contradiction|].
    destruct (String.eqb_spec k "optimizer") as [->|]; [|reflexivity]. exfalso. rewrite NF in F; [discriminate|]. cbn. intuition discriminate.
  - intros _ k I. apply NF. cbn in I |- *. intuition (subst; discriminate).
Qed.

(** ---- what restored states are ---- *)
Lemma field_restored s o k : field k (restored_state o s) = option_map (restored o s k) (field k s).
Proof. unfold field, restored_state. cbn [s_fields]. apply get_fun. Qed.
Lemma restored_same s o : same_fields ("grad_accumulated" :: match o with Some _ => ["opt_state"] | None => [] end) s (restored_state o s).
Proof.
  intros k N. rewrite field_restored. destruct (field k s) as [v|]; [|exact I]. cbn [option_map]. unfold restored.
  destruct (mem k four); [eapply looks_trans; [apply look_sd|apply look_frozen]|].
  assert (NG : k <> "grad_accumulated") by (intros ->; apply N; left; reflexivity).
  assert (S : looks_like v (saved k v)) by (unfold saved; destruct (String.eqb_spec k "grad_accumulated"); [contradiction|apply look_sd]).
  destruct (String.eqb_spec k "opt_state") as [->|_]; [|exact S].
  destruct o as [o|]; [exfalso; apply N; right; left; reflexivity|apply look_sd].
Qed.
Lemma proper_saved k v : proper v -> proper (saved k v).
Proof. intros P. unfold saved. destruct (String.eqb k "grad_accumulated"); [constructor|now apply proper_sd]. Qed.
Lemma restored_whole s o : (forall o v, proper v -> proper (opt_init o v)) -> whole_state s -> whole_state (restored_state o s).
Proof.
  intros PO W. constructor.
  - cbn [restored_state s_fields s_cls]. rewrite map_map. cbn [fst]. apply (whole_fields _ _ _ W).
  - destruct (whole_params _ _ _ W) as (p & F & f & kvs & ->). exists (frozen (to_state_dict (PMap f kvs))). rewrite field_restored, F. split; [reflexivity|].
    cbn. eexists _, _. reflexivity.
  - intros k I. cbn [restored_state s_cls] in I. destruct (whole_collections _ _ _ W k I) as (v & F & D). exists (frozen (to_state_dict v)). rewrite field_restored, F. cbn [option_map]. split.
    + unfold restored. replace (mem k four) with true; [reflexivity|]. symmetry. apply existsb_exists. exists k. split; [|apply String.eqb_refl].
      destruct (s_cls s); cbn in I |- *; tauto.
    + destruct D as [->|(f & kvs & ->)]; [left; reflexivity|right; cbn; eexists _, _; reflexivity].
  - intros k w F. rewrite field_restored in F. destruct (field k s) as [v|] eqn:G; [|discriminate]. injection F as <-.
    pose proof (whole_values _ _ _ W k v G) as P. unfold restored. destruct (mem k four); [now apply proper_frozen, proper_sd|].
    destruct (String.eqb k "opt_state"); [|now apply proper_saved]. destruct (whole_params _ _ _ W) as (p & Fp & _). rewrite Fp.
    destruct o; [apply PO, proper_frozen, proper_sd; exact (whole_values _ _ _ W _ _ Fp)|now apply proper_sd].
Qed.
Lemma restored_named s o : named s -> named (restored_state o s).
Proof.
  intros (v & F & N). exists (to_state_dict v). rewrite field_restored, F. split; [reflexivity|]. cbn [restored_state s_cls]. now apply name_sd_stored.
Qed.

(** ---- a jitted step ---- *)
Lemma field_jit s k : field k (jit s) = option_map rebuild (field k s).
Proof. unfold field, jit. cbn [s_fields]. apply get_map. Qed.
Lemma jit_same s : whole_state s -> same_fields [] s (jit s).
Proof. intros W k _. rewrite field_jit. destruct (field k s) as [v|] eqn:F; [|exact I]. apply look_rebuild. exact (whole_values _ _ _ W k v F). Qed.
Lemma jit_whole s : whole_state s -> whole_state (jit s).
Proof.
  intros W. constructor.
  - cbn [jit s_fields s_cls]. rewrite map_map. cbn [fst]. apply (whole_fields _ _ _ W).
  - destruct (whole_params _ _ _ W) as (p & F & f & kvs & ->). eexists. rewrite field_jit, F. split; [reflexivity|]. cbn. eexists _, _. reflexivity.
  - intros k I. destruct (whole_collections _ _ _ W k I) as (v & F & D). exists (rebuild v). rewrite field_jit, F. split; [reflexivity|].
    destruct D as [->|(f & kvs & ->)]; [left; reflexivity|right; cbn; eexists _, _; reflexivity].
  - intros k w F. rewrite field_jit in F. destruct (field k s) as [v|] eqn:G; [|discriminate]. injection F as <-. apply proper_rebuild. exact (whole_values _ _ _ W k v G).
Qed.
Lemma jit_named s : String.length (class_name (s_cls s)) <= 10 -> named s -> named (jit s).
Proof. intros L (v & F & N). exists (rebuild v). rewrite field_jit, F. split; [reflexivity|]. now apply name_rebuild. Qed.

(** ---- the posterior's restore ---- *)
Lemma posterior_lookup c : posterior_class c -> assoc_get (class_name c) posterior_table = Some c.
Proof. intros H. destruct c; try reflexivity; exfalso; apply H; cbn; tauto. Qed.
Lemma restore_named s o : named s -> posterior_restore opt_init (Checkpoint (save s)) o =
  match assoc_get (class_name (s_cls s)) posterior_table with None => Err KeyError | Some c => init_from_dict opt_init c (save s) o end.
Proof.
  intros (v & F & N). unfold posterior_restore, restore. rewrite (item_save s _ _ F) by discriminate. cbn [bind]. rewrite (name_decoded _ _ N). reflexivity.
Qed.
Lemma posterior_round s o : whole_state s -> named s -> posterior_class (s_cls s) ->
  posterior_restore opt_init (Checkpoint (save s)) o = Ok (Some (restored_state o s)).
Proof.
  intros W N P. rewrite restore_named, posterior_lookup by assumption. apply from_dict_four; [exact W| |]; intros E; apply P; rewrite E; cbn; tauto.
Qed.
Lemma output_round s o : whole_state s -> named s -> s_cls s = OutputCalibC -> (exists m, field "mutable" s = Some m /\ is_dict m) ->
  posterior_restore opt_init (Checkpoint (save s)) o = Ok (Some (restored_state o s)).
Proof. intros W N E M. rewrite restore_named by assumption. rewrite E. cbn [class_name posterior_table table map assoc_get String.eqb]. now apply from_dict_output. Qed.
End Restore.
