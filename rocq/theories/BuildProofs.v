(** Proofs about the construction of probabilistic models and their generators. *)
From Coq Require Import List Arith ZArith QArith Bool String Lia.
From Verif Require Import Lib SchedModel SchedProofs BuildModel BuildSpec.
Import ListNotations.
Local Notation length := List.length.
Local Notation concat := List.concat.
Open Scope nat_scope.

(** ---- dispatch ---- *)
Lemma get_in {V} k (d : list (string * V)) v : get k d = Some v -> In (k, v) d.
Proof.
  induction d as [|[k' x] r IH]; [discriminate|]; cbn; destruct (String.eqb_spec k k') as [->|N]; intro H.
  - injection H as ->; now left.
  - right; now apply IH.
Qed.
Lemma get_none {V} k (d : list (string * V)) : get k d = None -> forall v, ~ In (k, v) d.
Proof.
  induction d as [|[k' x] r IH]; [now intros _ v []|]; cbn; destruct (String.eqb_spec k k') as [->|N]; [discriminate|].
  intros H v [E|I]; [now injection E as -> _|now apply (IH H v)].
Qed.

Lemma kwargs_ok_spec kw : sngp_kwargs_ok kw = true <-> kwargs_fine (SngpA kw).
Proof.
  unfold sngp_kwargs_ok, kwargs_fine; rewrite andb_true_iff, forallb_forall; split.
  - intros [H G]; split.
    + destruct (get "output_dim" kw) as [d|] eqn:E; [|discriminate]. exists d; now apply get_in.
    + intros k v I; specialize (H _ I); apply existsb_exists in H; destruct H as [x [Hx Ex]]. apply String.eqb_eq in Ex; cbn in Ex; now subst.
  - intros [[d I] H]; split.
    + intros [k v] J; apply existsb_exists; exists k; split; [now apply (H k v)|apply String.eqb_refl].
    + destruct (get "output_dim" kw) eqn:E; [reflexivity|]. now elim (get_none _ _ E d).
Qed.

Theorem classifier_built : forall transformers masked net a, from_library a -> kwargs_fine a ->
  exists p, build_classifier transformers masked net a = Ok p /\
    Some (pt_posterior p) = posterior_of a /\
    has_gp_head (pt_manager p) = is_sngp a /\
    head_kwargs (pt_manager p) = method_kwargs a /\
    uses_transformers (pt_manager p) = transformers && nw_pretrained net /\
    (pt_layer p = MaskedLayer <-> transformers = true /\ In (nw_class net) masked).
Proof.
  intros tf masked net a L K.
  assert (HL : get_prob_output_layer tf masked net = MaskedLayer <-> tf = true /\ In (nw_class net) masked).
  { unfold get_prob_output_layer; destruct tf; [|split; [discriminate|now intros []]].
    destruct (existsb (String.eqb (nw_class net)) masked) eqn:E.
    - split; [|reflexivity]; intros _; split; [reflexivity|]. apply existsb_exists in E; destruct E as [x [I Ex]]; apply String.eqb_eq in Ex; now subst.
    - split; [discriminate|]. intros [_ I]. assert (X : existsb (String.eqb (nw_class net)) masked = true) by (apply existsb_exists; exists (nw_class net); split; [exact I|apply String.eqb_refl]). congruence. }
  unfold build_classifier.
  destruct a as [| | | | |kw| | |n]; try (now elim L); cbn [approx_name get_or get managers_table posteriors_table String.eqb Ascii.eqb Bool.eqb bind];
    unfold get_model_manager, make_manager, method_kwargs; destruct tf, (nw_pretrained net);
    try (eexists; split; [reflexivity|]; cbn; do 4 (split; [reflexivity|]); exact HL).
  all: rewrite (proj2 (kwargs_ok_spec kw) K); eexists; split; [reflexivity|]; cbn; do 4 (split; [reflexivity|]); exact HL.
Qed.

Lemma get_absent {V} k (d : list (string * V)) : ~ In k (map fst d) -> get k d = None.
Proof. intros N. destruct (get k d) as [v|] eqn:E; [|reflexivity]. apply get_in in E. apply (in_map fst) in E. contradiction. Qed.
Theorem unknown_name : forall transformers masked net name, ~ In name library_names ->
  build_classifier transformers masked net (CustomA name) = Err AttributeError /\ build_regressor (CustomA name) = Err AttributeError.
Proof.
  intros tf masked net name H. unfold build_classifier, build_regressor; cbn [approx_name]; unfold get_or.
  rewrite !get_absent; [split; reflexivity| |]; intros I; apply H; cbn in *; tauto.
Qed.
Theorem sngp_bad_keywords : forall transformers masked net kw, ~ kwargs_fine (SngpA kw) ->
  build_classifier transformers masked net (SngpA kw) = Err TypeError.
Proof.
  intros tf masked net kw H.
  assert (E : sngp_kwargs_ok kw = false) by (destruct (sngp_kwargs_ok kw) eqn:E; [now apply kwargs_ok_spec in E|reflexivity]).
  unfold build_classifier; cbn [approx_name get_or get managers_table posteriors_table String.eqb Ascii.eqb Bool.eqb bind].
  unfold get_model_manager, make_manager, method_kwargs; rewrite E; destruct tf, (nw_pretrained net); reflexivity.
Qed.

Theorem classifier_callbacks : forall transformers masked net a p, from_library a -> kwargs_fine a ->
  build_classifier transformers masked net a = Ok p ->
  fit_callbacks p = match a with
                    | SngpA kw => Ok [match get "ridge_penalty" kw with Some r => r | None => 1%Q end]
                    | _ => Ok []
                    end.
Proof.
  intros tf masked net a p L K B. destruct (classifier_built tf masked net a L K) as [p' [B' [HP [HG [HK _]]]]].
  rewrite B in B'; injection B' as <-. unfold fit_callbacks.
  destruct a; try (now elim L); cbn in HP; injection HP as HP; rewrite HP; try reflexivity.
  cbn in HG, HK. destruct (pt_manager p); cbn in HG, HK; try discriminate; subst; reflexivity.
Qed.

Theorem regressor_built : forall a, from_library a ->
  exists p, build_regressor a = Ok p /\ Some (pt_posterior p) = posterior_of a /\ pt_manager p = RegM /\
            (is_sngp a = false -> fit_callbacks p = Ok []) /\ (is_sngp a = true -> fit_callbacks p = Err AttributeError).
Proof. intros a L; destruct a; try (now elim L); eexists; (split; [reflexivity|]); cbn; repeat split; intro; try discriminate; reflexivity. Qed.

(** ---- generators ---- *)
Definition inv (w : world) : Prop :=
  length (w_gens w) = length (w_priors w) /\
  (forall m c, m < length (w_priors w) -> c <> PriorC -> rng_attr (Own m c) (w_rng w) = Some m) /\
  (forall m p, nth_error (w_priors w) m = Some p ->
     exists g, rng_attr (Prior p) (w_rng w) = Some g /\ m <= g /\ nth_error (w_priors w) g = Some p).

Lemma inv_empty : inv empty_world.
Proof. split; [reflexivity|split]; [intros m c H; cbn in H; lia|]. intros [|m] p H; discriminate. Qed.

Lemma object_eqb_spec a b : object_eqb a b = true <-> a = b.
Proof.
  split.
  - destruct a as [m c|i], b as [m' c'|j]; cbn; try discriminate.
    + intro H; apply andb_prop in H; destruct H as [H1 H2]; apply Nat.eqb_eq in H1; subst. destruct c, c'; try discriminate; reflexivity.
    + intro H; apply Nat.eqb_eq in H; now subst.
  - intros <-; destruct a as [m c|i]; cbn; [rewrite Nat.eqb_refl; now destruct c|apply Nat.eqb_refl].
Qed.
Lemma rng_attr_cons o o' g h : rng_attr o ((o', g) :: h) = if object_eqb o o' then Some g else rng_attr o h.
Proof. reflexivity. Qed.

Lemma build_own seed prior w m c : c <> PriorC ->
  rng_attr (Own m c) (w_rng (build seed prior w)) = if m =? length (w_gens w) then Some (length (w_gens w)) else rng_attr (Own m c) (w_rng w).
Proof.
  intro N; unfold build, set_rng_order; cbn [w_rng fold_left component_object]. rewrite !rng_attr_cons.
  destruct (Nat.eqb_spec m (length (w_gens w))) as [->|H].
  - destruct c; cbn; rewrite ?Nat.eqb_refl; cbn; rewrite ?Nat.eqb_refl; try reflexivity; now elim N.
  - cbn [object_eqb]. rewrite (proj2 (Nat.eqb_neq _ _) H); reflexivity.
Qed.
Lemma build_prior seed prior w p :
  rng_attr (Prior p) (w_rng (build seed prior w)) = if p =? prior then Some (length (w_gens w)) else rng_attr (Prior p) (w_rng w).
Proof. unfold build, set_rng_order; cbn [w_rng fold_left component_object]; rewrite !rng_attr_cons; cbn [object_eqb]; reflexivity. Qed.

Lemma inv_build seed prior w : inv w -> inv (build seed prior w).
Proof.
  intros [H1 [H2 H3]]; split; [|split].
  - cbn [build w_gens w_priors]; rewrite !app_length, H1; reflexivity.
  - intros m c L N; rewrite build_own by exact N. cbn [build w_priors] in L; rewrite app_length in L; cbn in L.
    destruct (Nat.eqb_spec m (length (w_gens w))) as [->|Hm]; [reflexivity|]. apply H2; [lia|exact N].
  - intros m p E; rewrite build_prior. cbn [build w_priors] in *.
    destruct (Nat.eqb_spec p prior) as [->|Hp].
    + exists (length (w_gens w)); split; [reflexivity|]. assert (m < length (w_priors w ++ [prior])) by (apply nth_error_Some; congruence).
      rewrite app_length in H; cbn in H; split; [lia|]. rewrite H1, nth_error_app2 by lia. now rewrite Nat.sub_diag.
    + destruct (Nat.lt_ge_cases m (length (w_priors w))) as [L|G].
      * rewrite nth_error_app1 in E by exact L. destruct (H3 m p E) as [g [A [B C]]]; exists g; split; [exact A|split; [exact B|]].
        rewrite nth_error_app1; [exact C|]. apply nth_error_Some; congruence.
      * rewrite nth_error_app2 in E by exact G. destruct (m - length (w_priors w)) as [|[|i]]; cbn in E; congruence.
Qed.

Lemma set_nth_length {A} n (x : A) l : length (set_nth n x l) = length l.
Proof.
  unfold set_nth; rewrite app_length. pose proof (firstn_skipn n l) as E. apply (f_equal (@List.length A)) in E; rewrite app_length in E.
  destruct (skipn n l); cbn in *; lia.
Qed.
Lemma set_nth_same {A} n (x : A) l : n < length l -> nth_error (set_nth n x l) n = Some x.
Proof.
  intro L; unfold set_nth. assert (F : length (firstn n l) = n) by (rewrite firstn_length; lia).
  rewrite nth_error_app2, F, Nat.sub_diag by lia. assert (E : length (skipn n l) = length l - n) by apply skipn_length.
  destruct (skipn n l); cbn in *; [lia|reflexivity].
Qed.
Lemma set_nth_other {A} n (x : A) : forall l m, m <> n -> nth_error (set_nth n x l) m = nth_error l m.
Proof.
  induction n as [|n IH]; intros [|y l] [|m] N; try reflexivity; try (now elim N).
  change (set_nth (S n) x (y :: l)) with (y :: set_nth n x l). cbn. apply IH. lia.
Qed.

Lemma draw_shape m c w g k w' : draw m c w = Ok (g, k, w') ->
  exists p s, nth_error (w_priors w) m = Some p /\ rng_attr (component_object m p c) (w_rng w) = Some g /\ nth_error (w_gens w) g = Some s /\
    k = Child s 0 /\ w_gens w' = set_nth g k (w_gens w) /\ w_priors w' = w_priors w /\ w_rng w' = w_rng w.
Proof.
  unfold draw. destruct (nth_error (w_priors w) m) as [p|]; [|discriminate].
  destruct (rng_attr (component_object m p c) (w_rng w)) as [g'|] eqn:E1; [|discriminate].
  destruct (nth_error (w_gens w) g') as [s|] eqn:E2; [|discriminate]. cbn. intro H; injection H as <- <- <-. exists p, s. rewrite E1, E2. repeat split; reflexivity.
Qed.
Lemma inv_draw m c w g k w' : inv w -> draw m c w = Ok (g, k, w') -> inv w'.
Proof.
  intros [H1 [H2 H3]] D; apply draw_shape in D; destruct D as [p [s [A [B [C [E [F [G I]]]]]]]]. unfold inv. rewrite F, G, I, set_nth_length. now split; [|split].
Qed.
Lemma draw_ok m c w : inv w -> m < length (w_gens w) -> exists g k w', draw m c w = Ok (g, k, w') /\ length (w_gens w') = length (w_gens w).
Proof.
  intros [H1 [H2 H3]] L. unfold draw.
  destruct (nth_error (w_priors w) m) as [p|] eqn:E; [|apply nth_error_None in E; lia].
  assert (X : exists g, rng_attr (component_object m p c) (w_rng w) = Some g /\ g < length (w_gens w)).
  { destruct c; cbn [component_object]; try (exists m; split; [apply H2; [lia|discriminate]|exact L]).
    destruct (H3 m p E) as [g [A [B C]]]; exists g; split; [exact A|]. rewrite H1; apply nth_error_Some; congruence. }
  destruct X as [g [-> Lg]]. destruct (nth_error (w_gens w) g) as [s|] eqn:E2; [|apply nth_error_None in E2; lia].
  cbn. do 3 eexists; split; [reflexivity|]. cbn; apply set_nth_length.
Qed.

Lemma run_total : forall ops w, inv w -> in_order (length (w_gens w)) ops -> exists t, run ops w = Ok t.
Proof.
  induction ops as [|[s p|m c] r IH]; intros w I O; [now exists []| |].
  - cbn in O |- *. apply IH; [now apply inv_build|]. cbn [build w_gens]; rewrite app_length; cbn; now rewrite Nat.add_1_r.
  - destruct O as [L O]. destruct (draw_ok m c w I L) as [g [k [w' [D Hl]]]]. cbn; rewrite D; cbn.
    destruct (IH w') as [t Ht]; [now apply (inv_draw _ _ _ _ _ _ I D)|now rewrite Hl|]. rewrite Ht; now eexists.
Qed.
Theorem all_components_draw : forall ops, in_order 0 ops -> exists t, run ops empty_world = Ok t.
Proof. intros ops O; apply run_total; [exact inv_empty|exact O]. Qed.

Lemma run_draw m c r w t : run (Draw m c :: r) w = Ok t ->
  exists g k w' t', draw m c w = Ok (g, k, w') /\ run r w' = Ok t' /\ t = (m, c, g, k) :: t'.
Proof.
  cbn. destruct (draw m c w) as [[[g k] w']|e]; cbn; [|discriminate]. destruct (run r w') as [t'|e] eqn:E; cbn; [|discriminate].
  intro H; injection H as <-. now exists g, k, w', t'.
Qed.

Lemma streams_gen : forall ops w t g s, run ops w = Ok t -> nth_error (w_gens w ++ map (fun b => Seed (fst b)) (builds ops)) g = Some s ->
  keys_of_generator g t = rng_gets (length (keys_of_generator g t)) s.
Proof.
  induction ops as [|[sd p|m c] r IH]; intros w t g s H G.
  - cbn in H; injection H as <-; reflexivity.
  - cbn in H. apply (IH (build sd p w)); [exact H|]. cbn [build w_gens builds map fst] in *. rewrite <- app_assoc; exact G.
  - destruct (run_draw _ _ _ _ _ H) as [g' [k [w' [t' [D [R ->]]]]]]. cbn [builds] in G.
    destruct (draw_shape _ _ _ _ _ _ D) as [q [s' [A [B [C [E [F _]]]]]]].
    assert (Lg : g' < length (w_gens w)) by (apply nth_error_Some; congruence).
    unfold keys_of_generator; cbn [filter snd fst]. destruct (Nat.eqb_spec g' g) as [->|N].
    + cbn [map snd length rng_gets]. rewrite nth_error_app1 in G by exact Lg. assert (s' = s) by congruence; subst s'.
      cbn. subst k. f_equal. apply (IH w' t' g); [exact R|]. rewrite nth_error_app1, F; [now apply set_nth_same|]. rewrite F, set_nth_length; exact Lg.
    + apply (IH w' t' g); [exact R|]. destruct (Nat.lt_ge_cases g (length (w_gens w))) as [L|L].
      * rewrite nth_error_app1 in G by exact L. rewrite nth_error_app1; rewrite F; [|now rewrite set_nth_length]. rewrite set_nth_other; [exact G|congruence].
      * rewrite nth_error_app2 in G by exact L. rewrite nth_error_app2; rewrite F, set_nth_length; [exact G|exact L].
Qed.
Theorem streams : forall ops t g seed prior, run ops empty_world = Ok t -> nth_error (builds ops) g = Some (seed, prior) ->
  keys_of_generator g t = rng_gets (length (keys_of_generator g t)) (Seed seed).
Proof.
  intros ops t g seed prior H G; apply (streams_gen ops empty_world t g); [exact H|]. cbn [w_gens empty_world app].
  rewrite nth_error_map, G; reflexivity.
Qed.

Lemma owners_gen : forall ops w t, inv w -> run ops w = Ok t -> forall m c g k, In (m, c, g, k) t ->
  exists p, nth_error (w_priors w ++ map snd (builds ops)) m = Some p /\ nth_error (w_priors w ++ map snd (builds ops)) g = Some p /\ m <= g /\ (c <> PriorC -> g = m).
Proof.
  induction ops as [|[sd p|m0 c0] r IH]; intros w t I H m c g k J.
  - cbn in H; injection H as <-; destruct J.
  - cbn in H. destruct (IH _ _ (inv_build sd p w I) H _ _ _ _ J) as [q [A [B C]]]. exists q. cbn [build w_priors builds map snd] in *. rewrite <- app_assoc in A, B. now split; [|split].
  - destruct (run_draw _ _ _ _ _ H) as [g' [k' [w' [t' [D [R ->]]]]]]. cbn [builds]. destruct J as [E|J].
    + injection E as <- <- <- <-. destruct (draw_shape _ _ _ _ _ _ D) as [q [s' [A [B [C _]]]]]. exists q.
      assert (Lm : m0 < length (w_priors w)) by (apply nth_error_Some; congruence).
      destruct I as [H1 [H2 H3]].
      assert (X : m0 <= g' /\ nth_error (w_priors w) g' = Some q /\ (c0 <> PriorC -> g' = m0)).
      { destruct c0; cbn [component_object] in B;
          try (rewrite H2 in B by (try exact Lm; discriminate); injection B as <-; split; [lia|split; [exact A|reflexivity]]).
        destruct (H3 _ _ A) as [g2 [B2 [Le C2]]]. rewrite B in B2; injection B2 as <-. split; [exact Le|split; [exact C2|now intros []]]. }
      destruct X as [X1 [X2 X3]]. assert (Lg : g' < length (w_priors w)) by (apply nth_error_Some; congruence).
      rewrite !nth_error_app1 by assumption. now repeat split.
    + destruct (draw_shape _ _ _ _ _ _ D) as [q [s' [A [B [C [E [F [G Hr]]]]]]]].
      destruct (IH _ _ (inv_draw _ _ _ _ _ _ I D) R _ _ _ _ J) as [q' X]. rewrite G in X. now exists q'.
Qed.
Theorem owners : forall ops t m c g k, run ops empty_world = Ok t -> In (m, c, g, k) t ->
  (c <> PriorC -> g = m) /\
  exists sm sg p, nth_error (builds ops) m = Some (sm, p) /\ nth_error (builds ops) g = Some (sg, p) /\ m <= g.
Proof.
  intros ops t m c g k H J. destruct (owners_gen ops empty_world t inv_empty H _ _ _ _ J) as [p [A [B [C D]]]].
  split; [exact D|]. cbn [w_priors empty_world app] in A, B. rewrite nth_error_map in A, B.
  destruct (nth_error (builds ops) m) as [[sm pm]|]; [|discriminate]. destruct (nth_error (builds ops) g) as [[sg pg]|]; [|discriminate].
  cbn in A, B. injection A as ->; injection B as ->. now exists sm, sg, p.
Qed.

Theorem reproducible : forall ops t m seed prior, run ops empty_world = Ok t ->
  nth_error (builds ops) m = Some (seed, prior) ->
  (forall j s, nth_error (builds ops) j = Some (s, prior) -> j = m) ->
  keys_of_model m t = rng_gets (length (keys_of_model m t)) (Seed seed).
Proof.
  intros ops t m seed prior H B U.
  assert (E : keys_of_model m t = keys_of_generator m t).
  { unfold keys_of_model, keys_of_generator; f_equal. apply filter_ext_in. intros [[[m' c] g] k] J; cbn.
    destruct (owners _ _ _ _ _ _ H J) as [_ [sm [sg [p [A [C _]]]]]].
    destruct (Nat.eqb_spec m' m) as [->|N]; symmetry.
    - rewrite B in A; injection A as _ <-. apply Nat.eqb_eq. now apply (U _ _ C).
    - apply Nat.eqb_neq; intros ->. rewrite B in C; injection C as _ <-. apply N. now apply (U _ _ A). }
  rewrite E; now apply (streams _ _ _ _ _ H B).
Qed.

(** keys under different seeds *)
Fixpoint root (k : key) : nat := match k with Seed n => n | Child k _ => root k end.
Lemma rng_gets_root n : forall s k, In k (rng_gets n s) -> root k = root s.
Proof. induction n as [|n IH]; intros s k; [intros []|]; cbn; intros [<-|I]; [reflexivity|]. now rewrite (IH _ _ I). Qed.
Theorem different_seeds : forall ops t m m' seed seed' prior prior', run ops empty_world = Ok t ->
  nth_error (builds ops) m = Some (seed, prior) -> nth_error (builds ops) m' = Some (seed', prior') -> seed <> seed' ->
  (forall j s, nth_error (builds ops) j = Some (s, prior) -> j = m) -> (forall j s, nth_error (builds ops) j = Some (s, prior') -> j = m') ->
  forall k, In k (keys_of_model m t) -> ~ In k (keys_of_model m' t).
Proof.
  intros ops t m m' seed seed' prior prior' H B B' N U U' k I I'.
  rewrite (reproducible _ _ _ _ _ H B U) in I. rewrite (reproducible _ _ _ _ _ H B' U') in I'.
  apply rng_gets_root in I, I'. cbn in I, I'. congruence.
Qed.

(** the prior draws from the model built last with it *)
Lemma run_app_draw : forall ops m c w t, inv w -> run (ops ++ [Draw m c]) w = Ok t ->
  exists t' g k, run ops w = Ok t' /\ t = t' ++ [(m, c, g, k)] /\
    (c = PriorC -> forall j p, nth_error (w_priors w ++ map snd (builds ops)) m = Some p -> nth_error (w_priors w ++ map snd (builds ops)) j = Some p -> j <= g).
Proof.
  induction ops as [|[sd p|m0 c0] r IH]; intros m c w t I H.
  - cbn [app] in H. destruct (run_draw _ _ _ _ _ H) as [g [k [w' [t' [D [R ->]]]]]]. cbn in R; injection R as <-.
    exists [], g, k; split; [reflexivity|split; [reflexivity|]]. intros -> j p A B. cbn [builds map] in A, B; rewrite app_nil_r in A, B.
    destruct (draw_shape _ _ _ _ _ _ D) as [q [s' [Aq [Bq [C _]]]]]. rewrite A in Aq; injection Aq as <-. cbn [component_object] in Bq.
    destruct I as [H1 [H2 H3]]. destruct (H3 _ _ B) as [g2 [B2 [Le _]]]. rewrite Bq in B2; now injection B2 as <-.
  - cbn [app] in H. change (run (r ++ [Draw m c]) (build sd p w) = Ok t) in H. destruct (IH _ _ _ _ (inv_build sd p w I) H) as [t' [g [k [A [B C]]]]].
    exists t', g, k; split; [exact A|split; [exact B|]]. cbn [build w_priors builds map snd] in *. intros Hc j q; specialize (C Hc j q). now rewrite <- app_assoc in C.
  - cbn [app] in H. destruct (run_draw _ _ _ _ _ H) as [g' [k' [w' [t2 [D [R ->]]]]]]. destruct (IH _ _ _ _ (inv_draw _ _ _ _ _ _ I D) R) as [t' [g [k [A [B C]]]]].
    exists ((m0, c0, g', k') :: t'), g, k; split; [cbn; rewrite D; cbn; now rewrite A|split; [now rewrite B|]].
    destruct (draw_shape _ _ _ _ _ _ D) as [q [s' [Aq [Bq [_ [_ [_ [G _]]]]]]]]. rewrite G in C; exact C.
Qed.
Theorem prior_owner : forall ops m t, run (ops ++ [Draw m PriorC]) empty_world = Ok t ->
  exists t' g k p sm sg, t = t' ++ [(m, PriorC, g, k)] /\ nth_error (builds ops) m = Some (sm, p) /\ nth_error (builds ops) g = Some (sg, p) /\
    (forall j s, nth_error (builds ops) j = Some (s, p) -> j <= g).
Proof.
  intros ops m t H. destruct (run_app_draw _ _ _ _ _ inv_empty H) as [t' [g [k [A [B C]]]]].
  assert (J : In (m, PriorC, g, k) t) by (rewrite B; apply in_or_app; right; now left).
  destruct (owners _ _ _ _ _ _ H J) as [_ [sm [sg [p [E1 [E2 _]]]]]].
  assert (Eb : builds (ops ++ [Draw m PriorC]) = builds ops) by (clear; induction ops as [|[]]; cbn; congruence).
  rewrite Eb in E1, E2. exists t', g, k, p, sm, sg; split; [exact B|split; [exact E1|split; [exact E2|]]].
  intros j s Hj. cbn [w_priors empty_world app] in C. apply (C eq_refl j p); rewrite nth_error_map; [rewrite E1|rewrite Hj]; reflexivity.
Qed.

(** two models with the default prior: building the second changes what the first draws, and
    drawing from the first changes the keys of the second *)
Theorem shared_prior_refuted : exists t1 t2 t3,
  run [Build 0 0; Draw 0 PriorC] empty_world = Ok t1 /\
  run [Build 0 0; Build 1 0; Draw 0 PriorC; Draw 1 ManagerC] empty_world = Ok t2 /\
  run [Build 0 0; Build 1 0; Draw 1 ManagerC] empty_world = Ok t3 /\
  keys_of_model 0 t1 <> keys_of_model 0 t2 /\ keys_of_model 1 t2 <> keys_of_model 1 t3.
Proof. do 3 eexists. repeat split; try reflexivity; discriminate. Qed.
