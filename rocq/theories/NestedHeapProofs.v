From Coq Require Import List Arith Lia Bool String.
From Verif Require Import Lib NestedModel NestedProofs NestedHeapModel.
Import ListNotations.
Open Scope list_scope.
Local Notation length := List.length.

Section Heap.
Context {V : Type}.
Implicit Types (h : heap V) (v o : value V) (d : obj V).

Lemma write_length {A} (l : list A) a x : length (write l a x) = length l.
Proof. revert a. induction l as [|y l IH]; intros [|a]; simpl; auto. Qed.

Lemma write_same {A} (l : list A) a x : a < length l -> nth_error (write l a x) a = Some x.
Proof. revert a. induction l as [|y l IH]; intros [|a] H; simpl in *; try lia; [reflexivity|]. apply IH. lia. Qed.

Lemma write_other {A} (l : list A) a b x : a <> b -> nth_error (write l a x) b = nth_error l b.
Proof. revert a b. induction l as [|y l IH]; intros [|a] [|b] H; simpl; try reflexivity; try lia. apply IH. lia. Qed.

(** the region of addresses >= n refers only to itself *)
Definition fresh_val n v := match v with VLeaf _ => True | VRef a => n <= a end.
Definition fresh_obj n d := forall k v, In (k, v) d -> fresh_val n v.
Definition region n h := forall a d, n <= a -> nth_error h a = Some d -> fresh_obj n d.
Definition keeps n h h' := n <= length h -> n <= length h' /\ forall a, a < n -> nth_error h' a = nth_error h a.
Definition fresh_memo n (m : memo) := forall a b, memo_get m a = Some b -> n <= b.

Lemma fresh_set n k v d : fresh_obj n d -> fresh_val n v -> fresh_obj n (assoc_set k v d).
Proof.
  intros F Fv k' v' H. induction d as [|[k2 v2] d IH]; simpl in H.
  - destruct H as [H|[]]. now injection H as <- <-.
  - destruct (String.eqb k k2); simpl in H; destruct H as [H|H].
    + now injection H as <- <-.
    + apply (F k' v'). now right.
    + apply (F k' v'). left. exact H.
    + apply IH; [|exact H]. intros a b Hab. apply (F a b). now right.
Qed.

Lemma region_write n h a d : region n h -> (n <= a -> fresh_obj n d) -> region n (write h a d).
Proof.
  intros R F b e Hb H. destruct (Nat.eq_dec a b) as [<-|N].
  - assert (L : a < length h).
    { rewrite <- (write_length h a d). apply nth_error_Some. congruence. }
    rewrite write_same in H by assumption. injection H as <-. auto.
  - rewrite write_other in H by assumption. eapply R; eassumption.
Qed.

Lemma region_alloc n h : region n h -> region n (h ++ [[]]).
Proof.
  intros R a d Ha H. destruct (lt_dec a (length h)) as [L|L].
  - rewrite nth_error_app1 in H by assumption. eapply R; eassumption.
  - rewrite nth_error_app2 in H by lia. destruct (a - length h) as [|[|]]; simpl in H; try discriminate.
    injection H as <-. intros ? ? [].
Qed.

Lemma keeps_write n h a d : n <= a -> keeps n h (write h a d).
Proof. intros Ha L. rewrite write_length. split; [assumption|]. intros b Hb. apply write_other. lia. Qed.

Lemma keeps_alloc n h : keeps n h (h ++ [[]]).
Proof. intros L. rewrite app_length. split; [lia|]. intros a Ha. apply nth_error_app1. lia. Qed.

Lemma keeps_trans n h1 h2 h3 : keeps n h1 h2 -> keeps n h2 h3 -> keeps n h1 h3.
Proof.
  intros A B L. destruct (A L) as (L2 & A2). destruct (B L2) as (L3 & B2).
  split; [assumption|]. intros a Ha. rewrite B2, A2 by assumption. reflexivity.
Qed.

Lemma keeps_refl n h : keeps n h h. Proof. intros L. auto. Qed.

Lemma dcopy_spec n fuel : forall h m v h' m' v',
  dcopy fuel h m v = Some (h', m', v') -> n <= length h -> region n h -> fresh_memo n m ->
  keeps n h h' /\ region n h' /\ fresh_memo n m' /\ fresh_val n v' /\
  (forall x, v = VLeaf x -> v' = VLeaf x).
Proof.
  induction fuel as [|fuel IH]; intros h m v h' m' v' H L R M; [discriminate|].
  cbn [dcopy] in H. destruct v as [x|a].
  - injection H as <- <- <-. split; [apply keeps_refl|]. repeat split; auto.
  - destruct (memo_get m a) as [b|] eqn:G.
    + injection H as <- <- <-. split; [apply keeps_refl|]. repeat split; auto; [exact (M _ _ G)|discriminate].
    + destruct (nth_error h a) as [o|] eqn:Eo; [|discriminate].
      set (b := length h) in *.
      assert (Gen : forall kvs h1 m1 acc,
        (fix go (kvs : obj V) (h : heap V) (m : memo) (acc : obj V) :=
           match kvs with
           | [] => Some (h, m, VRef b)
           | (k, v) :: r =>
               match dcopy fuel h m v with
               | None => None
               | Some (h1, m1, v1) => go r (write h1 b (acc ++ [(k, v1)])) m1 (acc ++ [(k, v1)])
               end
           end) kvs h1 m1 acc = Some (h', m', v') ->
        n <= length h1 -> region n h1 -> fresh_memo n m1 -> fresh_obj n acc ->
        keeps n h1 h' /\ region n h' /\ fresh_memo n m' /\ v' = VRef b).
      { clear H. induction kvs as [|[k w] kvs IHk]; intros h1 m1 acc H L1 R1 M1 Fa.
        - injection H as <- <- <-. split; [apply keeps_refl|]. auto.
        - destruct (dcopy fuel h1 m1 w) as [[[h2 m2] w2]|] eqn:D; [|discriminate].
          destruct (IH _ _ _ _ _ _ D L1 R1 M1) as (K2 & R2 & M2 & F2 & _).
          assert (Facc : fresh_obj n (acc ++ [(k, w2)])).
          { intros k' v2 Hin. apply in_app_or in Hin. destruct Hin as [Hin|[E|[]]]; [eapply Fa; eassumption|].
            now injection E as <- <-. }
          destruct (IHk _ _ _ H) as (K3 & R3 & M3 & ->); auto.
          + rewrite write_length. now apply K2.
          + apply region_write; auto.
          + split; [|auto]. eapply keeps_trans; [exact K2|]. eapply keeps_trans; [|exact K3].
            apply keeps_write. unfold b. lia. }
      destruct (Gen _ _ _ _ H) as (K & R' & M' & ->).
      * rewrite app_length. lia.
      * now apply region_alloc.
      * intros c e E. simpl in E. destruct (c =? a); [injection E as <-; unfold b; lia|eapply M; eassumption].
      * intros ? ? [].
      * split; [eapply keeps_trans; [apply keeps_alloc|exact K]|]. split; [exact R'|]. split; [exact M'|]. split; [exact L|discriminate].
Qed.

Lemma hset_path_spec n allow keys : forall h a o h',
  hset_path allow h a keys o = Ok h' -> n <= length h -> region n h -> n <= a ->
  keeps n h h' /\ (fresh_val n o -> region n h').
Proof.
  induction keys as [|k ks IH]; intros h a o h' H L R Ha; [discriminate|].
  cbn [hset_path] in H. destruct (nth_error h a) as [d|] eqn:Ed; [|discriminate].
  pose proof (R a d Ha Ed) as Fd.
  assert (W : forall x : result (heap V), x = Ok (write h a (assoc_set k o d)) -> x = Ok h' ->
      keeps n h h' /\ (fresh_val n o -> region n h')).
  { intros x -> E. injection E as <-. split; [now apply keeps_write|]. intros Fo. apply region_write; auto.
    intros _. now apply fresh_set. }
  destruct ks as [|k2 ks].
  - destruct (assoc_get k d).
    + now apply (W _ eq_refl).
    + destruct allow; [now apply (W _ eq_refl)|discriminate].
  - destruct (assoc_get k d) as [[x|b]|] eqn:G; [discriminate| |].
    + eapply IH; try eassumption. apply get_in in G. exact (Fd _ _ G).
    + destruct allow; [|discriminate]. cbv zeta in H.
      assert (K1 : keeps n h (write (h ++ [[]]) a (assoc_set k (VRef (length h)) d)))
        by (eapply keeps_trans; [apply keeps_alloc|now apply keeps_write]).
      destruct (IH _ _ _ _ H) as (K2 & R2).
      * now apply K1.
      * apply region_write; [now apply region_alloc|]. intros _. now apply fresh_set.
      * exact L.
      * split; [eapply keeps_trans; eassumption|exact R2].
Qed.

Lemma hset_paths_leaves n allow pos : forall h a h',
  hset_paths allow h a pos = Ok h' -> n <= length h -> region n h -> n <= a ->
  Forall (fun po => fresh_val n (snd po)) pos -> keeps n h h'.
Proof.
  induction pos as [|[p o] pos IH]; intros h a h' H L R Ha F; simpl in H.
  - injection H as <-. apply keeps_refl.
  - destruct (hset_path allow h a p o) as [h1|] eqn:E; [|discriminate]. simpl in H.
    inversion F as [|? ? F1 F2]; subst.
    destruct (hset_path_spec n allow p h a o h1 E L R Ha) as (K1 & R1).
    eapply keeps_trans; [exact K1|]. eapply IH; eauto. now apply K1.
Qed.

Theorem hnested_set_keeps fuel h a paths objs allow h' r :
  hnested_set fuel h a paths objs allow = Some (Ok (h', r)) ->
  (forall v, In v objs -> exists x, v = VLeaf x) \/ length paths = 1 ->
  forall b d, nth_error h b = Some d -> nth_error h' b = Some d.
Proof.
  unfold hnested_set. destruct (length paths =? length objs) eqn:El; simpl negb; cbv iota; [|discriminate].
  apply Nat.eqb_eq in El.
  destruct (dcopy fuel h [] (VRef a)) as [[[h1 m1] v1]|] eqn:D; [|discriminate].
  assert (R0 : region (length h) h).
  { intros b d Hb H. exfalso. apply nth_error_None in Hb. congruence. }
  destruct (dcopy_spec (length h) fuel _ _ _ _ _ _ D (le_n _) R0) as (K & R & _ & F & _).
  { intros c e E. discriminate. }
  destruct v1 as [x|d0]; [discriminate|]. simpl in F.
  destruct (hset_paths allow h1 d0 (combine paths objs)) as [h2|] eqn:S; [|discriminate].
  intros E. injection E as <- <-. intros Hyp b d Hb.
  assert (Lb : b < length h) by (apply nth_error_Some; congruence).
  assert (K2 : keeps (length h) h1 h2).
  { destruct Hyp as [Hyp|Hyp].
    - eapply hset_paths_leaves; try eassumption; [now apply K|].
      apply Forall_forall. intros [p o] Hin. apply in_combine_r in Hin. destruct (Hyp o Hin) as (x & ->). exact I.
    - destruct paths as [|p [|? ?]]; try discriminate. destruct objs as [|o [|? ?]]; try discriminate.
      simpl in S. destruct (hset_path allow h1 d0 p o) as [h3|] eqn:P; [|discriminate]. simpl in S.
      injection S as <-. eapply hset_path_spec; try eassumption. now apply K. }
  destruct (keeps_trans _ _ _ _ K K2 (le_n _)) as (_ & X). rewrite X; assumption.
Qed.
End Heap.
