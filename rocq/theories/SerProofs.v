(** Proofs about SerModel.v: values *)
From Coq Require Import List Arith Lia Bool String Permutation.
From Verif Require Import Lib NestedModel NestedProofs NestedProofs2 FlatProofs SerModel SerSpec.
Import ListNotations.
Local Notation length := List.length.

Section Values.
Context {A : Type}.
Implicit Types v w : pv A.

Section Ind.
Variable P : pv A -> Prop.
Hypothesis HN : P PNone.
Hypothesis Hn : forall n, P (PNum n).
Hypothesis Ha : forall a, P (PArr a).
Hypothesis Hs : forall l, Forall P l -> P (PSeq l).
Hypothesis Hm : forall f kvs, Forall (fun kv => P (snd kv)) kvs -> P (PMap f kvs).
Hypothesis Ho : forall c kvs, Forall (fun kv => P (snd kv)) kvs -> P (PObj c kvs).
Fixpoint pv_tree_ind v : P v :=
  let pairs := fix pairs (l : list (string * pv A)) : Forall (fun kv => P (snd kv)) l :=
    match l with [] => Forall_nil _ | kv :: r => Forall_cons kv (pv_tree_ind (snd kv)) (pairs r) end in
  match v with
  | PNone => HN
  | PNum n => Hn n
  | PArr a => Ha a
  | PSeq l => Hs l ((fix go l : Forall P l := match l with [] => Forall_nil _ | x :: r => Forall_cons x (pv_tree_ind x) (go r) end) l)
  | PMap f kvs => Hm f kvs (pairs kvs)
  | PObj c kvs => Ho c kvs (pairs kvs)
  end.
End Ind.

Lemma get_map {X Y} (f : X -> Y) (l : list (string * X)) k :
  assoc_get k (map (fun kv => (fst kv, f (snd kv))) l) = option_map f (assoc_get k l).
Proof. induction l as [|[k' x] l IH]; [reflexivity|]. cbn. now destruct (String.eqb k k'). Qed.
Lemma get_combine_map {X Y} (f : X -> Y) ks (l : list X) k :
  assoc_get k (combine ks (map f l)) = option_map f (assoc_get k (combine ks l)).
Proof.
  revert ks. induction l as [|x l IH]; intros [|k' ks]; try reflexivity. cbn. now destruct (String.eqb k k').
Qed.
Lemma keys_map {X Y} (f : X -> Y) (l : list (string * X)) : map fst (map (fun kv => (fst kv, f (snd kv))) l) = map fst l.
Proof. now rewrite map_map. Qed.

(** ---- saving ---- *)
Lemma entry_sd k v : entry k (to_state_dict v) = option_map to_state_dict (entry k v).
Proof.
  destruct v as [|n|a|l|f kvs|c kvs]; try reflexivity.
  - cbn [to_state_dict entry]. unfold list_to_state_dict. rewrite map_length. apply get_combine_map.
  - apply get_map.
  - apply get_map.
Qed.
Lemma top_sd v : top (to_state_dict v) = top v.
Proof. now destruct v. Qed.
Lemma look_sd v : looks_like v (to_state_dict v).
Proof.
  intros path. revert v. induction path as [|k ks IH]; intros v; cbn [look].
  - now rewrite top_sd.
  - rewrite entry_sd. destruct (entry k v) as [w|]; [apply IH|reflexivity].
Qed.

(** ---- rebuilding ---- *)
Lemma decimal_keys {X} (l : list X) : NoDup (map fst (combine (map decimal (seq 0 (length l))) l)).
Proof.
  assert (E : map fst (combine (map decimal (seq 0 (length l))) l) = map decimal (seq 0 (length l))).
  { assert (L : length (map decimal (seq 0 (length l))) = length l) by now rewrite map_length, seq_length.
    revert L. generalize (map decimal (seq 0 (length l))). clear. induction l as [|x l IH]; intros [|k ks] L; try discriminate; [reflexivity|].
    cbn. f_equal. apply IH. cbn in L. lia. }
  rewrite E. apply FinFun.Injective_map_NoDup; [intros x y; apply decimal_inj|apply seq_NoDup].
Qed.
Lemma entry_rebuild k v : proper v -> entry k (rebuild v) = option_map rebuild (entry k v).
Proof.
  intros P. destruct v as [|n|a|l|f kvs|c kvs]; try reflexivity.
  - cbn [rebuild entry]. rewrite map_length. apply get_combine_map.
  - cbn [rebuild entry]. inversion P; subst. rewrite sort_get by now rewrite keys_map. apply get_map.
  - apply get_map.
Qed.
Lemma top_rebuild v : top (rebuild v) = top v.
Proof. now destruct v. Qed.
Lemma get_in_list {X} k (l : list (string * X)) x : assoc_get k l = Some x -> In (k, x) l.
Proof. apply get_in. Qed.
Lemma entry_proper k v w : proper v -> entry k v = Some w -> proper w.
Proof.
  intros P E. destruct P as [|n|a|l F|f kvs N F|c kvs N F]; try discriminate; cbn [entry] in E; apply get_in_list in E.
  - apply in_combine_r in E. rewrite Forall_forall in F. now apply F.
  - rewrite Forall_forall in F. exact (F _ E).
  - rewrite Forall_forall in F. exact (F _ E).
Qed.
Lemma look_rebuild v : proper v -> looks_like v (rebuild v).
Proof.
  intros P path. revert v P. induction path as [|k ks IH]; intros v P; cbn [look].
  - now rewrite top_rebuild.
  - rewrite entry_rebuild by exact P. destruct (entry k v) as [w|] eqn:E; [|reflexivity]. cbn [option_map]. apply IH. now apply (entry_proper k v).
Qed.

(** ---- keys stay different ---- *)
Lemma proper_sd v : proper v -> proper (to_state_dict v).
Proof.
  induction v as [|n|a|l IH|f kvs IH|c kvs IH] using pv_tree_ind; intros P; try (cbn; constructor).
  - apply decimal_keys.
  - inversion P as [| | |? F| |]; subst. apply Forall_forall. intros [k w] I. apply in_combine_r in I. apply in_map_iff in I.
    destruct I as (x & <- & I). rewrite Forall_forall in IH, F. exact (IH _ I (F _ I)).
  - rewrite keys_map. now inversion P.
  - inversion P as [| | | |? ? N F|]; subst. apply Forall_forall. intros kv I. apply in_map_iff in I. destruct I as (x & <- & I).
    rewrite Forall_forall in IH, F. exact (IH _ I (F _ I)).
  - rewrite keys_map. now inversion P.
  - inversion P as [| | | | |? ? N F]; subst. apply Forall_forall. intros kv I. apply in_map_iff in I. destruct I as (x & <- & I).
    rewrite Forall_forall in IH, F. exact (IH _ I (F _ I)).
Qed.
Lemma proper_rebuild v : proper v -> proper (rebuild v).
Proof.
  induction v as [|n|a|l IH|f kvs IH|c kvs IH] using pv_tree_ind; intros P; try (cbn; constructor).
  - inversion P as [| | |? F| |]; subst. apply Forall_forall. intros w I. apply in_map_iff in I. destruct I as (x & <- & I).
    rewrite Forall_forall in IH, F. exact (IH _ I (F _ I)).
  - inversion P as [| | | |? ? N F|]; subst. refine (Permutation_NoDup (Permutation_map fst (sort_keys_perm _)) _). now rewrite keys_map.
  - inversion P as [| | | |? ? N F|]; subst. refine (Permutation_Forall (sort_keys_perm _) _). apply Forall_forall. intros kv I. apply in_map_iff in I.
    destruct I as (x & <- & I). rewrite Forall_forall in IH, F. exact (IH _ I (F _ I)).
  - rewrite keys_map. now inversion P.
  - inversion P as [| | | | |? ? N F]; subst. apply Forall_forall. intros kv I. apply in_map_iff in I. destruct I as (x & <- & I).
    rewrite Forall_forall in IH, F. exact (IH _ I (F _ I)).
Qed.

(** ---- FrozenDict ---- *)
Definition frozen v : pv A := match v with PMap _ kvs => PMap true kvs | _ => v end.
Lemma look_frozen v : looks_like v (frozen v).
Proof. intros [|k ks]; now destruct v. Qed.
Lemma proper_frozen v : proper v -> proper (frozen v).
Proof. intros P. destruct v; try exact P. inversion P. now constructor. Qed.
Lemma freeze_dict v : is_dict v -> freeze (to_state_dict v) = Ok (frozen (to_state_dict v)).
Proof. now intros (f & kvs & ->). Qed.
Lemma freeze_optional v : v = PNone \/ is_dict v -> freeze_unless_none (to_state_dict v) = Ok (frozen (to_state_dict v)).
Proof. now intros [->|(f & kvs & ->)]. Qed.
Lemma looks_trans v w u : looks_like v w -> looks_like w u -> looks_like v u.
Proof. intros H K p. now rewrite H. Qed.
Lemma looks_refl v : looks_like v v.
Proof. now intros p. Qed.

(** ---- names ---- *)
Lemma codes_dict (f : bool) (l : list nat) :
  rmap of_codes (mapM (fun kv : string * pv A => code (snd kv)) (combine (map decimal (seq 0 (length l))) (map PNum l))) = Ok (of_codes l).
Proof.
  assert (E : forall ks, length ks = length l -> mapM (fun kv : string * pv A => code (snd kv)) (combine ks (map PNum l)) = Ok l).
  { clear. induction l as [|n l IH]; intros [|k ks] L; try discriminate; [reflexivity|]. cbn [map combine mapM snd code bind]. rewrite IH by (cbn in L; lia). reflexivity. }
  rewrite E by now rewrite map_length, seq_length. reflexivity.
Qed.
Lemma sd_nums l : map to_state_dict (map (@PNum A) l) = map PNum l.
Proof. now rewrite map_map. Qed.
Lemma map_combine_num ks (l : list nat) :
  map (fun kv : string * pv A => (fst kv, to_state_dict (snd kv))) (combine ks (map PNum l)) = combine ks (map PNum l).
Proof. revert ks. induction l as [|n l IH]; intros [|k ks]; try reflexivity. cbn. f_equal. apply IH. Qed.
Lemma map_combine_num' ks (l : list nat) :
  map (fun kv : string * pv A => (fst kv, rebuild (snd kv))) (combine ks (map PNum l)) = combine ks (map PNum l).
Proof. revert ks. induction l as [|n l IH]; intros [|k ks]; try reflexivity. cbn. f_equal. apply IH. Qed.
Lemma name_sd n v : name_stored n v ->
  to_state_dict v = PMap false (combine (map decimal (seq 0 (length (to_codes n)))) (map PNum (to_codes n))).
Proof.
  intros [->|(f & ->)]; cbn [to_state_dict].
  - rewrite sd_nums. unfold list_to_state_dict. now rewrite map_length.
  - now rewrite map_combine_num.
Qed.
Lemma name_decoded n v : name_stored n v -> decode_name (to_state_dict v) = Ok n.
Proof. intros H. rewrite (name_sd n v H). cbn [decode_name]. rewrite (codes_dict true). now rewrite of_to_codes. Qed.
Lemma name_sd_stored n v : name_stored n v -> name_stored n (to_state_dict v).
Proof. intros H. right. exists false. now apply name_sd. Qed.
Lemma to_codes_length n : length (to_codes n) = String.length n.
Proof. unfold to_codes. rewrite map_length. induction n as [|c n IH]; [reflexivity|]. cbn. now rewrite IH. Qed.
Lemma name_rebuild n v : String.length n <= 10 -> name_stored n v -> name_stored n (rebuild v).
Proof.
  intros L [->|(f & ->)].
  - left. cbn [rebuild]. now rewrite map_map.
  - right. exists f. cbn [rebuild]. rewrite map_combine_num'. f_equal.
    pose proof (sort_state_dict (map (@PNum A) (to_codes n))) as S. unfold list_to_state_dict in S. rewrite map_length in S. apply S. now rewrite to_codes_length.
Qed.
Lemma name_rebuild_tuple n : rebuild (@PSeq A (map PNum (to_codes n))) = PSeq (map PNum (to_codes n)).
Proof. cbn [rebuild]. now rewrite map_map. Qed.
End Values.
