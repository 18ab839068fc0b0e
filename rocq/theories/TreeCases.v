(** Toys for examples about trees of parameters: a map over the arrays, and an optimizer that takes
    a step along the differences of the loss. *)
From Coq Require Import List ZArith Bool String.
From Verif Require Import Lib NestedModel NestedSpec NestedProofs2 FreezeModel FreezeSpec EnsModel EnsSpec.
Import ListNotations.

Fixpoint tmap {V} (f : V -> V) (t : tree V) : tree V :=
  match t with Leaf v => Leaf (f v) | Dict kvs => Dict (map (fun kv => (fst kv, tmap f (snd kv))) kvs) end.
Lemma tmap_path {V} (f : V -> V) q : forall t, at_path (tmap f t) q = option_map (tmap f) (at_path t q).
Proof.
  induction q as [|k q IH]; intros t; [reflexivity|]. destruct t as [v|kvs]; [reflexivity|]. cbn.
  induction kvs as [|[k' t'] kvs IHk]; [reflexivity|]. cbn. destruct (String.eqb k k'); [apply IH|exact IHk].
Qed.
Lemma tmap_structure {V} (f : V -> V) t : same_structure t (tmap f t).
Proof. intros q. rewrite tmap_path. destruct (at_path t q) as [[v|kvs]|]; exact I. Qed.
Lemma tmap_unique {V} (f : V -> V) (t : tree V) : unique_keys t -> unique_keys (tmap f t).
Proof.
  induction t as [v|kvs IH] using tree_rect'; [intros _; exact I|]. intros [N U]. cbn. split; [rewrite map_map; cbn; exact N|]. clear N.
  induction kvs as [|[k t] kvs IHk]; [exact I|]. cbn in IH, U |- *. inversion IH as [|x l I1 I2]; subst. destruct U as [U1 U2]. split; [exact (I1 U1)|exact (IHk I2 U2)].
Qed.
(** addition of trees, refused for different structures *)
Fixpoint paths_of {V} (t : tree V) : list path :=
  [] :: match t with Leaf _ => [] | Dict kvs => flat_map (fun kv => map (cons (fst kv)) (paths_of (snd kv))) kvs end.
Definition kind_eqb {V} (a b : option (tree V)) : bool :=
  match a, b with Some (Leaf _), Some (Leaf _) | Some (Dict _), Some (Dict _) | None, None => true | _, _ => false end.
Fixpoint tsum (a b : tree Z) : tree Z :=
  match a with
  | Leaf v => match b with Leaf w => Leaf (v + w)%Z | Dict _ => Leaf v end
  | Dict kvs => Dict (map (fun kv => (fst kv, match b with
                                              | Dict kvb => match List.find (fun kw => String.eqb (fst kv) (fst kw)) kvb with Some kw => tsum (snd kv) (snd kw) | None => snd kv end
                                              | Leaf _ => snd kv end)) kvs)
  end.
Definition tadd (a b : tree Z) : result (tree Z) :=
  if forallb (fun q => kind_eqb (at_path a q) (at_path b q)) (paths_of a ++ paths_of b) then Ok (tsum a b) else Err ValueError.
Lemma paths_complete {V} q : forall (t : tree V) u, at_path t q = Some u -> In q (paths_of t).
Proof.
  induction q as [|k q IH]; intros [v|kvs] u H; try (now left); try discriminate. right. cbn in H.
  destruct (find (fun kv => String.eqb k (fst kv)) kvs) as [kv|] eqn:F; [|discriminate]. apply find_some in F as [I E]. apply String.eqb_eq in E. subst k.
  apply in_flat_map. exists kv. split; [exact I|]. apply in_map. now apply IH with u.
Qed.
Lemma tsum_structure q : forall a b, match at_path a q, at_path (tsum a b) q with Some (Leaf _), Some (Leaf _) | Some (Dict _), Some (Dict _) | None, None => True | _, _ => False end.
Proof.
  induction q as [|k q IH]; intros a b; [destruct a as [v|kvs], b; exact I|]. destruct a as [v|kvs]; [destruct b; exact I|]. cbn.
  induction kvs as [|[k' t] kvs IHk]; [exact I|]. cbn. destruct (String.eqb k k'); [|exact IHk].
  cbn. destruct b as [w|kvb]; [destruct (at_path t q) as [[?|?]|]; exact I|]. destruct (find _ kvb); [apply IH|destruct (at_path t q) as [[?|?]|]; exact I].
Qed.
Lemma tadd_adds : adds tadd.
Proof.
  intros a b. unfold tadd. destruct (forallb _ _) eqn:E.
  - split; [intros _; eexists; split; [reflexivity|intros q; apply tsum_structure]|]. intros N. exfalso. apply N. intros q.
    rewrite forallb_forall in E. assert (K : In q (paths_of a ++ paths_of b) \/ (at_path a q = None /\ at_path b q = None)).
    { destruct (at_path a q) eqn:A; [left; apply in_or_app; left; now apply paths_complete with t|]. destruct (at_path b q) eqn:B; [left; apply in_or_app; right; now apply paths_complete with t|now right]. }
    destruct K as [K|[-> ->]]; [|exact I]. specialize (E q K). destruct (at_path a q) as [[?|?]|], (at_path b q) as [[?|?]|]; try exact I; discriminate.
  - split; [|reflexivity]. intros S. exfalso. apply Bool.not_true_iff_false in E. apply E. apply forallb_forall. intros q _. specialize (S q).
    destruct (at_path a q) as [[?|?]|], (at_path b q) as [[?|?]|]; try reflexivity; contradiction.
Qed.
Lemma tmap_keeps f : keeps (tmap (V := Z) f).
Proof. exact (tmap_structure f). Qed.

Lemma tsum_unique (a : tree Z) : forall b, unique_keys a -> unique_keys (tsum a b).
Proof.
  induction a as [v|kvs IH] using tree_rect'; intros b; [destruct b; intros _; exact I|]. intros [N U]. cbn. split; [rewrite map_map; cbn; exact N|]. clear N.
  induction kvs as [|[k t] kvs IHk]; [exact I|]. cbn in IH, U |- *. inversion IH as [|x l I1 I2]; subst. destruct U as [U1 U2]. split; [|exact (IHk I2 U2)].
  destruct b as [w|kvb]; [exact U1|]. destruct (find _ kvb); [now apply I1|exact U1].
Qed.
(** gradient descent; its state counts updates *)
Definition tgd (lr : Z) (g : tree Z) (os : Z) (p : tree Z) : result (tree Z * Z) := rmap (fun p' => (p', (os + 1)%Z)) (tadd p (tmap (fun d => - lr * d)%Z g)).
Lemma tgd_keeps lr : keeps_structure (tgd lr).
Proof.
  intros g os p p' os' H U. unfold tgd, tadd in H. destruct (forallb _ _); [|discriminate]. injection H as <- <-. split; [now apply tsum_unique|intros q; apply tsum_structure].
Qed.
(** differences of the loss: one array is increased by 1 at a time *)
Fixpoint tbump (t : tree Z) (q : path) : tree Z :=
  match t with
  | Leaf v => Leaf (v + 1)%Z
  | Dict kvs => match q with [] => t | k :: q => Dict (map (fun kv => (fst kv, if String.eqb k (fst kv) then tbump (snd kv) q else snd kv)) kvs) end
  end.
Fixpoint tmapi (f : path -> Z -> Z) (pre : path) (t : tree Z) : tree Z :=
  match t with Leaf v => Leaf (f pre v) | Dict kvs => Dict (map (fun kv => (fst kv, tmapi f (pre ++ [fst kv]) (snd kv))) kvs) end.
Definition tdiff (l : tree Z -> Z) (t : tree Z) : tree Z := tmapi (fun q _ => l (tbump t q) - l t)%Z [] t.
Lemma tmapi_structure f q : forall pre t, match at_path t q, at_path (tmapi f pre t) q with Some (Leaf _), Some (Leaf _) | Some (Dict _), Some (Dict _) | None, None => True | _, _ => False end.
Proof.
  induction q as [|k q IH]; intros pre t; [destruct t; exact I|]. destruct t as [v|kvs]; [exact I|]. cbn.
  induction kvs as [|[k' t] kvs IHk]; [exact I|]. cbn. destruct (String.eqb k k'); [apply IH|exact IHk].
Qed.
Lemma tdiff_keeps l : keeps (tdiff l).
Proof. intros t q. apply tmapi_structure. Qed.
Lemma structure_by {V} (a b : tree V) : forallb (fun q => kind_eqb (at_path a q) (at_path b q)) (paths_of a ++ paths_of b) = true -> same_structure a b.
Proof.
  intros E q. rewrite forallb_forall in E. assert (K : In q (paths_of a ++ paths_of b) \/ (at_path a q = None /\ at_path b q = None)).
  { destruct (at_path a q) eqn:A; [left; apply in_or_app; left; now apply paths_complete with t|]. destruct (at_path b q) eqn:B; [left; apply in_or_app; right; now apply paths_complete with t|now right]. }
  destruct K as [K|[-> ->]]; [|exact I]. specialize (E q K). destruct (at_path a q) as [[?|?]|], (at_path b q) as [[?|?]|]; try exact I; discriminate.
Qed.
(** a fact about all arrays of a literal tree *)
Lemma leaves_by {V} (t : tree V) (P : path -> V -> Prop) :
  Forall (fun q => match at_path t q with Some (Leaf v) => P q v | _ => True end) (paths_of t) -> forall q v, leaf_at t q v -> P q v.
Proof.
  intros F q v H. rewrite Forall_forall in F. unfold leaf_at in H. specialize (F q (paths_complete q t _ H)). now rewrite H in F.
Qed.
Definition te_fit {M C} (loss : nat -> tree Z -> option M -> C -> Z -> nat -> Z * option M) :=
  ensemble_fit (fun (_ : Z) (_ : tree Z) => 0%Z) tgd loss tdiff tadd (fun n => tmap (fun x => x / Z.of_nat n)%Z) (tmap (fun _ => 0%Z)).
Definition te_map {M C} (loss : nat -> tree Z -> option M -> C -> Z -> nat -> Z * option M) :=
  map_fit (fun (_ : Z) (_ : tree Z) => 0%Z) tgd loss tdiff tadd (fun n => tmap (fun x => x / Z.of_nat n)%Z) (tmap (fun _ => 0%Z)).
