(** Proofs about loading transformers and their variables. *)
From Coq Require Import List Arith Lia Bool String Reals Lra.
From Verif Require Import Lib NestedModel NestedSpec NestedProofs NestedProofs2 FreezeModel FreezeSpec FreezeProofs SngpModel SngpSpec SngpProofs3 TfmModel TfmSpec.
Import ListNotations.
Open Scope list_scope.
Local Notation length := List.length.
Local Notation concat := List.concat.

(** ---- classes ---- *)
Section Classes.
Context {C : Type} (name : C -> string).
Lemma table_get cs n : forall d, NoDup (map name cs) ->
  assoc_get n (fold_left (fun d c => assoc_set (name c) c d) cs d) =
  match find (fun c => String.eqb n (name c)) cs with Some c => Some c | None => assoc_get n d end.
Proof.
  induction cs as [|c cs IH]; intros d ND; [reflexivity|]. cbn [fold_left find]. inversion ND as [|x l N1 N2]; subst. rewrite IH by exact N2.
  destruct (String.eqb_spec n (name c)) as [->|N].
  - destruct (find (fun c0 => String.eqb (name c) (name c0)) cs) as [c'|] eqn:F; [|apply get_set_same].
    apply find_some in F as [F1 F2]. apply String.eqb_eq in F2. exfalso. apply N1. rewrite F2. now apply in_map.
  - destruct (find _ cs); [reflexivity|]. now apply get_set_other.
Qed.
Lemma table_some cs n c : NoDup (map name cs) -> (assoc_get n (name_to_model name cs) = Some c <-> In c cs /\ name c = n).
Proof.
  intros ND. unfold name_to_model. rewrite table_get by exact ND. split.
  - destruct (find _ cs) as [c'|] eqn:F; [|discriminate]. intros H. injection H as ->. apply find_some in F as [F1 F2]. apply String.eqb_eq in F2. auto.
  - intros [H <-]. destruct (find _ cs) as [c'|] eqn:F.
    + apply find_some in F as [F1 F2]. apply String.eqb_eq in F2. f_equal.
      clear - ND H F1 F2. induction cs as [|x cs IH]; [destruct H|]. cbn [map] in ND. inversion ND as [|? ? N1 N2]; subst.
      destruct H as [->|H], F1 as [->|F1]; auto; exfalso; apply N1; [rewrite F2; now apply in_map | rewrite <- F2; now apply in_map].
    + exfalso. apply (find_none _ _ F) in H. now rewrite String.eqb_refl in H.
Qed.
Lemma table_none cs n : NoDup (map name cs) -> (assoc_get n (name_to_model name cs) = None <-> forall c, In c cs -> name c <> n).
Proof.
  intros ND. split.
  - intros H c Hc E. assert (X : assoc_get n (name_to_model name cs) = Some c) by (apply table_some; auto). congruence.
  - intros H. destruct (assoc_get n (name_to_model name cs)) as [c|] eqn:E; [|reflexivity]. apply table_some in E as [E1 E2]; [|exact ND]. exfalso. exact (H c E1 E2).
Qed.
Lemma match_some cs archs c : NoDup (map name cs) -> match_architecture (name_to_model name cs) archs = Some c -> first_named name cs (concat (map accepted archs)) c.
Proof.
  intros ND. induction archs as [|a rest IH]; [discriminate|]. cbn [match_architecture map concat]. unfold accepted at 1. cbn [app].
  destruct (assoc_get a _) as [c1|] eqn:E1.
  { intros H. injection H as ->. apply table_some in E1 as [I1 N1]; [|exact ND]. exists [], a. eexists. split; [reflexivity|]. repeat split; auto. }
  rewrite table_none in E1 by exact ND. destruct (assoc_get (String.append "TF" a) _) as [c1|] eqn:E2.
  { intros H. injection H as ->. apply table_some in E2 as [I1 N1]; [|exact ND]. exists [a], (String.append "TF" a). eexists. split; [reflexivity|]. repeat split; auto.
    intros n' c' [<-|[]] Hc. now apply E1. }
  rewrite table_none in E2 by exact ND. destruct (assoc_get (String.append "Flax" a) _) as [c1|] eqn:E3.
  { intros H. injection H as ->. apply table_some in E3 as [I1 N1]; [|exact ND]. exists [a; String.append "TF" a], (String.append "Flax" a). eexists. split; [reflexivity|]. repeat split; auto.
    intros n' c' [<-|[<-|[]]] Hc; auto. }
  rewrite table_none in E3 by exact ND. intros H. destruct (IH H) as (pre & n & post & Ep & Ic & Nc & Np).
  exists (accepted a ++ pre), n, post. rewrite Ep. split; [reflexivity|]. repeat split; auto.
  intros n' c' Hn Hc. apply in_app_or in Hn as [Hn|Hn]; [|now apply Np]. destruct Hn as [<-|[<-|[<-|[]]]]; auto.
Qed.
Lemma match_none cs archs : NoDup (map name cs) -> match_architecture (name_to_model name cs) archs = None ->
  forall n c, In n (concat (map accepted archs)) -> In c cs -> name c <> n.
Proof.
  intros ND. induction archs as [|a rest IH]; [intros _ n c []|]. cbn [match_architecture map concat]. unfold accepted at 1. cbn [app].
  destruct (assoc_get a _) as [c1|] eqn:E1; [discriminate|]. destruct (assoc_get (String.append "TF" a) _) as [c1|] eqn:E2; [discriminate|].
  destruct (assoc_get (String.append "Flax" a) _) as [c1|] eqn:E3; [discriminate|]. rewrite table_none in E1, E2, E3 by exact ND.
  intros H n c [<-|[<-|[<-|Hn]]] Hc; auto.
Qed.
End Classes.
Theorem class_chosen : forall (C : Type) (name : C -> string) (cs : list C) archs, NoDup (map name cs) -> cs <> [] ->
  exists c, get_model_class name (Several cs) (Some archs) = Ok c /\
    (first_named name cs (concat (map accepted archs)) c \/
     (forall n c', In n (concat (map accepted archs)) -> In c' cs -> name c' <> n) /\ exists rest, cs = c :: rest).
Proof.
  intros C name cs archs ND NE. unfold get_model_class. destruct (match_architecture (name_to_model name cs) archs) as [c|] eqn:E.
  - exists c. split; [reflexivity|]. left. now apply match_some.
  - destruct cs as [|c rest]; [congruence|]. exists c. split; [reflexivity|]. right. split; [now apply match_none | now exists rest].
Qed.
Theorem architectures_none : forall (C : Type) (name : C -> string) (cs : list C) c,
  get_model_class name (Several cs) None = Err TypeError /\ get_model_class name (One c) None = Ok c.
Proof. intros. split; reflexivity. Qed.
Theorem shipped : forall (V : Type) (load : string -> list (string * tree V)) config architectures,
  (In config ["bert"; "distilbert"; "roberta"]%string ->
     exists c, from_pretrained (fun c => c) shipped_mapping load config architectures = Ok (c, restructure (load c)) /\
     c = (if String.eqb config "bert" then "FlaxSNGPBertExtractorForSequenceClassification"
          else if String.eqb config "distilbert" then "FlaxSNGPDistilBertExtractorForSequenceClassification"
          else "FlaxSNGPRobertaExtractorForSequenceClassification")%string) /\
  (~ In config ["bert"; "distilbert"; "roberta"]%string -> from_pretrained (fun c => c) shipped_mapping load config architectures = Err ValueError).
Proof.
  intros V load config archs. split.
  - intros [<-|[<-|[<-|[]]]]; eexists; (split; [reflexivity|reflexivity]).
  - intros N. unfold from_pretrained, shipped_mapping. cbn [assoc_get].
    destruct (String.eqb_spec config "bert") as [->|]; [exfalso; apply N; cbn; auto|].
    destruct (String.eqb_spec config "distilbert") as [->|]; [exfalso; apply N; cbn; auto|].
    destruct (String.eqb_spec config "roberta") as [->|]; [exfalso; apply N; cbn; auto|]. reflexivity.
Qed.

(** ---- collections of a loaded model ---- *)
Section Params.
Context {V : Type}.
Notation dict := (list (string * tree V)).
Lemma get_removed k k' (d : dict) : assoc_get k (filter (fun kv => negb (String.eqb (fst kv) k')) d) = if String.eqb k k' then None else assoc_get k d.
Proof. rewrite (get_filter (fun x => negb (String.eqb x k'))). now destruct (String.eqb k k'). Qed.
End Params.
Theorem restructure_spec : forall (V : Type) (loaded : list (string * tree V)),
  exists p, assoc_get "params" (restructure loaded) = Some (Dict p) /\
    assoc_get "spectral_stats" (restructure loaded) = unless_empty (assoc_get "spectral_stats" loaded) /\
    assoc_get "batch_stats" (restructure loaded) = unless_empty (assoc_get "batch_stats" loaded) /\
    (forall k, ~ In k ["params"; "spectral_stats"; "batch_stats"]%string -> assoc_get k (restructure loaded) = None) /\
    (forall k, assoc_get k p = if String.eqb k "spectral_stats" || String.eqb k "batch_stats" then None else assoc_get k loaded).
Proof.
  intros V loaded. unfold restructure, pop. 
  rewrite (get_removed "batch_stats" "spectral_stats"). change (String.eqb "batch_stats" "spectral_stats") with false. cbv iota.
  set (s := assoc_get "spectral_stats" loaded). set (b := assoc_get "batch_stats" loaded).
  set (p := filter (fun kv => negb (String.eqb (fst kv) "batch_stats")) (filter (fun kv => negb (String.eqb (fst kv) "spectral_stats")) loaded)).
  exists p.
  assert (P : forall k, assoc_get k p = if String.eqb k "spectral_stats" || String.eqb k "batch_stats" then None else assoc_get k loaded).
  { intros k. unfold p. rewrite !get_removed. destruct (String.eqb k "spectral_stats"), (String.eqb k "batch_stats"); reflexivity. }
  clearbody s b p. 
  assert (K : forall k, ~ In k ["params"; "spectral_stats"; "batch_stats"]%string -> String.eqb k "params" = false /\ String.eqb k "spectral_stats" = false /\ String.eqb k "batch_stats" = false).
  { intros k N. repeat split; apply String.eqb_neq; intros ->; apply N; cbn; auto. }
  destruct s as [[sl|[|s0 sr]]|], b as [[bl|[|b0 br]]|]; (split; [reflexivity|]; split; [reflexivity|]; split; [reflexivity|]; split; [|exact P];
    intros k N; destruct (K k N) as (K1 & K2 & K3); cbn; rewrite ?K1, ?K2, ?K3; reflexivity).
Qed.
Lemma merge_get {V} (variables rp random : list (string * tree V)) s k : NoDup (map fst rp) -> assoc_get "spectral_stats" rp = None ->
  assoc_get k (dict_update [("spectral_stats"%string, s)] rp) = if String.eqb k "spectral_stats" then Some s else assoc_get k rp.
Proof.
  intros ND N. rewrite get_update by exact ND. cbn [assoc_get]. destruct (String.eqb_spec k "spectral_stats") as [->|Hk]; [now rewrite N|]. now destruct (assoc_get k rp).
Qed.
Theorem round_trip : forall (V : Type) (variables rp : list (string * tree V)) s, NoDup (map fst rp) ->
  assoc_get "spectral_stats" variables = Some s -> s <> Dict [] -> assoc_get "params" variables = Some (Dict rp) ->
  assoc_get "spectral_stats" rp = None -> assoc_get "batch_stats" rp = None ->
  exists random p, init_weights variables None [] = Ok (Dict random, []) /\ assoc_get "params" (restructure random) = Some (Dict p) /\
    (forall k, assoc_get k p = assoc_get k rp) /\ assoc_get "spectral_stats" (restructure random) = Some s /\ assoc_get "batch_stats" (restructure random) = None.
Proof.
  intros V variables rp s ND Hs Ne Hp N1 N2. unfold init_weights, merge_random. rewrite Hs, Hp. cbn [bind].
  set (random := dict_update [("spectral_stats"%string, s)] rp). destruct (restructure_spec V random) as (p & A & B & D & _ & P).
  exists random, p. split; [reflexivity|]. split; [exact A|].
  assert (G : forall k, assoc_get k random = if String.eqb k "spectral_stats" then Some s else assoc_get k rp) by (intros k; unfold random; now apply merge_get).
  rewrite B, D, !G. cbn [String.eqb Ascii.eqb Bool.eqb]. change (String.eqb "spectral_stats" "spectral_stats") with true. change (String.eqb "batch_stats" "spectral_stats") with false. cbv iota. rewrite N2.
  split; [|split; [destruct s as [|[|]]; [reflexivity|congruence|reflexivity] | reflexivity]].
  intros k. rewrite P, G. destruct (String.eqb_spec k "spectral_stats") as [->|K1]; [now rewrite N1|]. cbn [orb].
  destruct (String.eqb_spec k "batch_stats") as [->|K2]; [now rewrite N2|]. reflexivity.
Qed.

(** ---- init_weights ---- *)
Section Flat.
Context {V : Type}.
Implicit Types flat : list (path * V).
Lemma path_eqb_spec p q : reflect (p = q) (path_eqb p q).
Proof. unfold path_eqb. destruct (list_eq_dec string_dec p q); constructor; assumption. Qed.
Lemma flat_get_in flat : NoDup (map fst flat) -> forall q v, In (q, v) flat <-> flat_get q flat = Some v.
Proof.
  induction flat as [|[p w] r IH]; intros ND q v; [split; [intros [] | discriminate]|]. cbn [map fst] in ND. inversion ND as [|? ? N1 N2]; subst. cbn [flat_get].
  destruct (path_eqb_spec q p) as [->|N].
  - split; [intros [H|H]; [now injection H as -> | exfalso; apply N1; exact (in_map fst _ _ H)] | intros H; injection H as ->; now left].
  - rewrite <- IH by exact N2. split; [intros [H|H]; [injection H as -> ->; congruence | exact H] | now right].
Qed.
Lemma flat_get_set p v flat q : flat_get q (flat_set p v flat) = if path_eqb q p then Some v else flat_get q flat.
Proof.
  induction flat as [|[p' w] r IH]; cbn [flat_set flat_get]; [reflexivity|].
  destruct (path_eqb_spec p p') as [->|N]; cbn [flat_get]; [now destruct (path_eqb_spec q p')|].
  destruct (path_eqb_spec q p') as [->|N']; [destruct (path_eqb_spec p' p) as [->|]; [congruence | reflexivity] | exact IH].
Qed.
Lemma flat_set_keys p v flat q : In q (map fst (flat_set p v flat)) <-> q = p \/ In q (map fst flat).
Proof.
  induction flat as [|[p' w] r IH]; cbn [flat_set map fst]; [cbn; intuition congruence|].
  destruct (path_eqb_spec p p') as [->|N]; cbn [map fst]; cbn [In]; [intuition congruence|]. rewrite IH. intuition congruence.
Qed.
Lemma flat_set_nodup p v flat : NoDup (map fst flat) -> NoDup (map fst (flat_set p v flat)).
Proof.
  induction flat as [|[p' w] r IH]; intros ND; cbn [flat_set map fst]; [repeat constructor; intros []|]. cbn [map fst] in ND. inversion ND as [|? ? N1 N2]; subst.
  destruct (path_eqb_spec p p') as [->|N]; cbn [map fst]; constructor; auto. rewrite flat_set_keys. intros [->|H]; [congruence | contradiction].
Qed.
Lemma fill_spec random missing : Forall (fun k => flat_get k random <> None) missing -> forall flat, NoDup (map fst flat) ->
  exists out, fill_missing random missing flat = Ok out /\ NoDup (map fst out) /\
    (forall q, In q missing -> flat_get q out = flat_get q random) /\ (forall q, ~ In q missing -> flat_get q out = flat_get q flat).
Proof.
  intros F. induction missing as [|k rest IH]; intros flat ND; [exists flat; repeat split; auto; intros ? []|].
  inversion F as [|? ? F1 F2]; subst. cbn [fill_missing]. destruct (flat_get k random) as [v|] eqn:E; [|congruence].
  destruct (IH F2 (flat_set k v flat) (flat_set_nodup k v flat ND)) as (out & O1 & O2 & O3 & O4). exists out. repeat split; auto.
  - intros q Hq. destruct (in_dec (list_eq_dec string_dec) q rest) as [I|I]; [now apply O3|]. destruct Hq as [<-|Hq]; [|contradiction].
    rewrite O4 by exact I. rewrite flat_get_set. destruct (path_eqb_spec k k); congruence.
  - intros q Hq. rewrite O4 by (intros X; apply Hq; now right). rewrite flat_get_set. destruct (path_eqb_spec q k) as [->|]; [exfalso; apply Hq; now left | reflexivity].
Qed.
Lemma unflatten_spec (t : tree V) flat : leaf_paths t (map fst flat) ->
  exists T, unflatten flat = Ok T /\ (exists kvs, T = Dict kvs) /\ forall q v, leaf_at T q v <-> In (q, v) flat.
Proof.
  intros L. assert (I := leaf_paths_independent t _ L). destruct L as [ND F].
  set (pos := map (fun pv : path * V => (fst pv, Leaf (snd pv))) flat).
  assert (E : map fst pos = map fst flat) by (unfold pos; rewrite map_map; reflexivity).
  assert (I' : all_independent (map fst pos)) by now rewrite E.
  rewrite Forall_forall in F.
  assert (Hin : forall po, In po pos -> In (fst po) (map fst flat)) by (intros po Hp; rewrite <- E; now apply in_map).
  destruct (set_paths_allow_ok pos (Dict []) I') as [T HT].
  - rewrite Forall_forall. intros po Hp. now destruct (F _ (Hin po Hp)).
  - rewrite Forall_forall. intros po Hp q r v Eq Nr A. destruct q; discriminate A.
  - exists T. split; [exact HT|]. destruct (set_paths_dict pos [] T HT) as [kvs K]. split; [now exists kvs|].
    pose proof (set_paths_true_reads pos (Dict []) T HT I') as Rd. rewrite Forall_forall in Rd.
    assert (Rf : forall q v, In (q, v) flat -> at_path T q = Some (Leaf v)).
    { intros q v H. apply (Rd (q, Leaf v)). unfold pos. apply in_map_iff. exists (q, v). split; [reflexivity | exact H]. }
    intros q v. split; [|apply Rf]. intros A. unfold leaf_at in A.
    destruct (set_paths_nothing_else pos (Dict []) T q _ HT A) as [B|B].
    + destruct q as [|k ks]; [rewrite K in A; discriminate|]. exfalso. apply B. reflexivity.
    + apply Exists_exists in B as ([p o] & Hp & B). unfold pos in Hp. apply in_map_iff in Hp as ([p' v'] & Eq & Hf). cbn [fst snd] in Eq. injection Eq as <- <-. cbn [fst] in B.
      pose proof (Rf _ _ Hf) as A'. assert (p' = q).
      { destruct B as [[r Er]|[r Er]]; subst; rewrite at_app in *.
        - rewrite A' in A. destruct r; [now rewrite app_nil_r | discriminate].
        - rewrite A in A'. destruct r; [now rewrite app_nil_r | discriminate]. }
      subst. rewrite A' in A. injection A as ->. exact Hf.
Qed.
End Flat.
Lemma merged_unique {V} (rp : list (string * tree V)) s : unique_keys (Dict rp) -> unique_keys s -> unique_keys (Dict (dict_update [("spectral_stats"%string, s)] rp)).
Proof.
  intros U Us. unfold dict_update. assert (U0 : unique_keys (Dict [("spectral_stats"%string, s)])) by (apply unique_dict; cbn; split; repeat constructor; auto).
  revert U0. generalize [("spectral_stats"%string, s)] as acc. apply unique_dict in U as [_ F]. induction F as [|[k v] rp Hv F IH]; intros acc Ua; [exact Ua|].
  cbn [fold_left fst snd]. apply IH. now apply assoc_set_unique.
Qed.
Lemma merged_leaf {V} (rp : list (string * tree V)) s q v : unique_keys (Dict rp) -> assoc_get "spectral_stats" rp = None ->
  (leaf_at (Dict (dict_update [("spectral_stats"%string, s)] rp)) q v <-> fresh_leaf s (Dict rp) q v).
Proof.
  intros U N. assert (ND : NoDup (map fst rp)) by (apply unique_dict in U; apply U). unfold fresh_leaf, leaf_at.
  destruct q as [|k ks]; [split; [discriminate | intros [H|(q' & H & _)]; discriminate]|].
  rewrite !at_cons, (merge_get [] rp [] s k ND N). destruct (String.eqb_spec k "spectral_stats") as [->|Hk].
  - rewrite N. split; [intros H; right; now exists ks | intros [H|(q' & H & H')]; [discriminate | injection H as <-; exact H']].
  - split; [intros H; now left | intros [H|(q' & H & _)]; [exact H | injection H as -> _; congruence]].
Qed.
Lemma leaf_fun {V} (t : tree V) q v w : leaf_at t q v -> leaf_at t q w -> v = w.
Proof. unfold leaf_at. intros A B. rewrite A in B. now injection B. Qed.
Lemma flat_leaf {V} (t : tree V) q v : unique_keys t -> (flat_get q (leaves t) = Some v <-> leaf_at t q v).
Proof. intros U. rewrite <- flat_get_in by now apply leaves_nodup. now apply leaves_at. Qed.
Theorem missing_filled : forall (V : Type) (variables rp p : list (string * tree V)) s missing,
  assoc_get "spectral_stats" variables = Some s -> assoc_get "params" variables = Some (Dict rp) ->
  unique_keys (Dict rp) -> unique_keys s -> assoc_get "spectral_stats" rp = None -> unique_keys (Dict p) ->
  (forall q, leaf_path (Dict p) q -> exists v, fresh_leaf s (Dict rp) q v) ->
  (forall q, In q missing -> ~ leaf_path (Dict p) q /\ exists v, fresh_leaf s (Dict rp) q v) ->
  exists t, init_weights variables (Some p) missing = Ok (t, []) /\
    forall q v, leaf_at t q v <-> leaf_at (Dict p) q v \/ (In q missing /\ fresh_leaf s (Dict rp) q v).
Proof.
  intros V variables rp p s missing Hs Hp U Us N Up Hsub Hmiss. unfold init_weights, merge_random. rewrite Hs, Hp. cbn [bind].
  set (random := Dict (dict_update [("spectral_stats"%string, s)] rp)).
  assert (Ur : unique_keys random) by now apply merged_unique.
  assert (ML : forall q v, leaf_at random q v <-> fresh_leaf s (Dict rp) q v) by (intros; now apply merged_leaf).
  destruct (fill_spec (leaves random) missing) with (flat := leaves (Dict p)) as (flat & E & ND & G1 & G2).
  { rewrite Forall_forall. intros q Hq. destruct (Hmiss q Hq) as [_ [v Hv]]. apply ML in Hv. apply flat_leaf in Hv; [|exact Ur]. congruence. }
  { now apply leaves_nodup. }
  rewrite E. cbn [bind].
  assert (FG : forall q v, In (q, v) flat <-> leaf_at (Dict p) q v \/ (In q missing /\ fresh_leaf s (Dict rp) q v)).
  { intros q v. rewrite flat_get_in by exact ND. destruct (in_dec (list_eq_dec string_dec) q missing) as [I|I].
    - rewrite G1 by exact I. rewrite flat_leaf by exact Ur. rewrite ML. destruct (Hmiss q I) as [Nl _]. split; [intros H; right; auto | intros [H|[_ H]]; [exfalso; apply Nl; now exists v | exact H]].
    - rewrite G2 by exact I. rewrite flat_leaf by exact Up. split; [intros H; now left | intros [H|[H _]]; [exact H | contradiction]]. }
  destruct (unflatten_spec random flat) as (T & ET & _ & HT).
  { split; [exact ND|]. rewrite Forall_forall. intros q Hq. apply in_map_iff in Hq as ([q' v] & Eq & Hin). cbn [fst] in Eq. subst q'.
    apply FG in Hin. assert (X : exists w, leaf_at random q w).
    { destruct Hin as [H|[_ H]]; [destruct (Hsub q (ex_intro _ v H)) as [w Hw]; exists w; now apply ML | exists v; now apply ML]. }
    destruct X as [w Hw]. split; [intros ->; discriminate Hw | now exists w]. }
  rewrite ET. exists T. split; [reflexivity|]. intros q v. rewrite HT. apply FG.
Qed.
Lemma fill_unknown {V} (random : list (path * V)) missing q : In q missing -> flat_get q random = None ->
  forall flat, fill_missing random missing flat = Err KeyError.
Proof.
  intros I N. induction missing as [|k rest IH]; intros flat; [contradiction|]. cbn [fill_missing].
  destruct (flat_get k random) as [v|] eqn:E; [|reflexivity].
  destruct I as [->|I]; [congruence|]. now apply IH.
Qed.
Theorem unknown_missing_raises : forall (V : Type) (variables rp p : list (string * tree V)) s missing q,
  assoc_get "spectral_stats" variables = Some s -> assoc_get "params" variables = Some (Dict rp) ->
  unique_keys (Dict rp) -> unique_keys s -> assoc_get "spectral_stats" rp = None ->
  In q missing -> (forall v, ~ fresh_leaf s (Dict rp) q v) ->
  init_weights variables (Some p) missing = Err KeyError.
Proof.
  intros V variables rp p s missing q Hs Hp U Us N I F. unfold init_weights, merge_random. rewrite Hs, Hp. cbn [bind].
  rewrite (fill_unknown _ missing q I); [reflexivity|].
  destruct (flat_get q _) as [v|] eqn:E; [|reflexivity]. exfalso.
  apply flat_leaf in E; [|now apply merged_unique]. apply merged_leaf in E; [|exact U|exact N]. exact (F v E).
Qed.
Theorem fresh_weights : forall (V : Type) (variables rp : list (string * tree V)) s missing,
  assoc_get "spectral_stats" variables = Some s -> assoc_get "params" variables = Some (Dict rp) ->
  unique_keys (Dict rp) -> assoc_get "spectral_stats" rp = None ->
  exists t, init_weights variables None missing = Ok (t, missing) /\ forall q v, leaf_at t q v <-> fresh_leaf s (Dict rp) q v.
Proof.
  intros V variables rp s missing Hs Hp U N. unfold init_weights, merge_random. rewrite Hs, Hp. cbn [bind].
  eexists. split; [reflexivity|]. intros q v. now apply merged_leaf.
Qed.
Theorem no_statistics_raises : forall (V : Type) (variables : list (string * tree V)) params missing,
  assoc_get "spectral_stats" variables = None -> init_weights variables params missing = Err KeyError.
Proof. intros V variables params missing H. unfold init_weights, merge_random. now rewrite H. Qed.

(** ---- calls ---- *)
Theorem call_given : forall (V : Type) (own : list (string * tree V)) p m train, NoDup (map fst m) -> assoc_get "params" m = None ->
  let r := transformer_call own (Some p) (Some m) train in
  assoc_get "params" (mc_variables (fst r)) = Some p /\ (forall k, k <> "params"%string -> assoc_get k (mc_variables (fst r)) = assoc_get k m) /\
  mc_mutable (fst r) = (if train then Some (map fst m) else None) /\ snd r = own.
Proof.
  intros V own p m train ND N. cbn. rewrite get_update by exact ND. rewrite N. split; [reflexivity|]. split; [|split; [now destruct train | reflexivity]].
  intros k K. rewrite get_update by exact ND. cbn [assoc_get]. destruct (String.eqb_spec k "params"); [congruence|]. now destruct (assoc_get k m).
Qed.
Theorem own_overwritten : forall (V : Type) (own : list (string * tree V)) m train k t, NoDup (map fst m) -> assoc_get k m = Some t ->
  assoc_get k (snd (transformer_call own None (Some m) train)) = Some t /\
  (forall p train', assoc_get k (mc_variables (fst (transformer_call (snd (transformer_call own None (Some m) train)) None None train'))) = Some t /\
                    snd (transformer_call own (Some p) (Some m) train') = own).
Proof.
  intros V own m train k t ND H. cbn. rewrite get_update by exact ND. rewrite H. split; [reflexivity|]. intros. split; reflexivity.
Qed.

(** ---- managers ---- *)
Theorem sngp_init_spec : forall (V : Type) features (own gp : list (string * tree V)), unique_keys (Dict gp) ->
  ((2 <= length features)%nat -> sngp_transformer_init features own gp = Err ValueError) /\
  ((length features <= 1)%nat -> exists t, sngp_transformer_init features own gp = Ok t /\
    (forall q v, leaf_at (Dict gp) q v -> leaf_at t q v) /\
    (forall q v, leaf_at t q v -> leaf_at (Dict gp) q v \/ leaf_at (Dict own) q v) /\
    (forall q v, leaf_at (Dict own) q v -> at_path (Dict gp) q = None -> (forall p w, prefix_of p q -> ~ leaf_at (Dict gp) p w) -> leaf_at t q v)).
Proof.
  intros V features own gp U. unfold sngp_transformer_init. split.
  - intros H. assert (E : (1 <? length features)%nat = true) by (apply Nat.ltb_lt; lia). now rewrite E.
  - intros H. assert (E : (1 <? length features)%nat = false) by (apply Nat.ltb_ge; lia). rewrite E. eexists. split; [reflexivity|]. repeat split.
    + intros q v Hq. exact (nested_update_last (Dict own) [] (Dict gp) q v U Hq).
    + intros q v Hq. apply nested_update_source in Hq; [|now constructor]. inversion Hq as [? ? A|? ? A]; subst; [now left|]. inversion A as [? ? B|? ? B]; subst; [now right | inversion B].
    + intros q v Hq N P. apply (nested_update_keep (Dict own) [Dict gp] q (Leaf v)); [now constructor | exact Hq|]. constructor; [|constructor]. split; [exact N | exact P].
Qed.
Theorem outputs_spec : forall (O M : Type) (call : option M -> hf_output O M) mutable o rest m,
  (call mutable = With_logits o \/ call mutable = Plain_out o \/ call mutable = Tuple_out o rest -> hf_apply call false mutable = Ok (Plain_out o, None)) /\
  (call mutable = With_logits o \/ call mutable = Plain_out o \/ call mutable = Tuple_out o rest -> mutable = None -> hf_apply call true mutable = Ok (Plain_out o, None)) /\
  (call mutable = With_mutable (Plain_out o) m -> mutable <> None -> hf_apply call true mutable = Ok (Plain_out o, Some m)).
Proof.
  intros O M call mutable o rest m. unfold hf_apply. repeat split.
  - intros [H|[H|H]]; rewrite H; reflexivity.
  - intros [H|[H|H]] E; subst; rewrite H; reflexivity.
  - intros H N. rewrite H. destruct mutable; [reflexivity | congruence].
Qed.
Theorem logits_kept : forall (O M : Type) (call : option M -> hf_output O M) c m (o : O),
  call (Some c) = With_mutable (With_logits o) m -> hf_apply call true (Some c) = Ok (With_logits o, Some m).
Proof. intros O M call c m o H. unfold hf_apply. now rewrite H. Qed.
