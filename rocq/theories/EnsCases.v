(** A toy network with two parameters, a (frozen) and w (trainable), whose loss is a * w * batch,
    trained by gradient descent with an integer learning rate; optimizers count their updates. *)
From Coq Require Import List ZArith Lia Bool String.
From Verif Require Import Lib NestedModel NestedSpec FreezeModel FreezeSpec EnsModel EnsSpec EnsProofs.
Import ListNotations.
Open Scope list_scope.
Local Open Scope Z_scope.

Definition ze_leaf (t : tree Z) : Z := match t with Leaf v => v | Dict _ => 0 end.
Definition ze_get (k : string) (t : tree Z) : Z := match at_path t [k] with Some (Leaf v) => v | _ => 0 end.
Definition ze_loss (run : nat) (p : tree Z) (m : option unit) (c : unit) (b : Z) (n : nat) : Z * option unit :=
  (ze_get "a" p * ze_get "w" p * b, m).
Definition ze_bump (k : string) (kvs : list (string * tree Z)) : list (string * tree Z) :=
  map (fun kv => if String.eqb (fst kv) k then (fst kv, Leaf (ze_leaf (snd kv) + 1)) else kv) kvs.
Definition ze_diff (l : tree Z -> Z) (t : tree Z) : tree Z :=
  match t with Leaf v => Leaf (l (Leaf (v + 1)) - l (Leaf v))
  | Dict kvs => Dict (map (fun kv => (fst kv, Leaf (l (Dict (ze_bump (fst kv) kvs)) - l t))) kvs) end.
Definition ze_keys (t : tree Z) : list string := match t with Leaf _ => [] | Dict kvs => map fst kvs end.
Definition ze_map2 (f : Z -> Z -> Z) (a b : tree Z) : result (tree Z) :=
  match a, b with
  | Dict x, Dict y => if list_eq_dec string_dec (map fst x) (map fst y) then Ok (Dict (map (fun xy => (fst (fst xy), Leaf (f (ze_leaf (snd (fst xy))) (ze_leaf (snd (snd xy)))))) (combine x y))) else Err ValueError
  | Leaf x, Leaf y => Ok (Leaf (f x y))
  | _, _ => Err ValueError
  end.
Definition ze_map (f : Z -> Z) (a : tree Z) : tree Z := match a with Leaf v => Leaf (f v) | Dict x => Dict (map (fun kv => (fst kv, Leaf (f (ze_leaf (snd kv))))) x) end.
(** gradient descent; its state counts updates *)
Definition ze_init (lr : Z) (t : tree Z) : Z := 0.
Definition ze_update (lr : Z) (g : tree Z) (os : Z) (p : tree Z) : result (tree Z * Z) := rmap (fun p' => (p', os + 1)) (ze_map2 (fun x d => x - lr * d) p g).
Definition ze_params (a w : Z) : tree Z := Dict [("a", Leaf a); ("w", Leaf w)]%string.
Definition ze_start (a w : Z) : start Z unit unit := {| st_params := ze_params a w; st_mutable := None; st_calib := tt |}.
Definition ze_random (i : nat) : start Z unit unit := match i with O => ze_start 2 1 | _ => ze_start (4 + Z.of_nat i) (10 * Z.of_nat i) end.
Definition ze_freeze (p : path) (v : Z) : string := match p with ["a"%string] => "frozen" | _ => "trainable" end.
Definition ze_cfg (lr : Z) (frozen : bool) (k : nat) : fit_config Z Z := {| fc_method := lr; fc_freeze := if frozen then Some ze_freeze else None; fc_accumulation := k; fc_clip := fun t => t |}.
Definition ze_map_run (lr : Z) (dump : bool) (k : nat) : preliminary Z Z Z := {| pr_cfg := ze_cfg lr false k; pr_dumped := dump; pr_batches := [1] |}.
Definition ze_fit := ensemble_fit ze_init ze_update ze_loss ze_diff (ze_map2 Z.add) (fun n => ze_map (fun x => x / Z.of_nat n)) (ze_map (fun _ => 0)).
Definition ze_chain := chain_state ze_init ze_update ze_loss ze_diff (ze_map2 Z.add) (fun n => ze_map (fun x => x / Z.of_nat n)) (ze_map (fun _ => 0)).


(** the optimizer of the fit configuration would have led elsewhere *)
Lemma ze_own_elsewhere : forall s', descent (B := Z) (ze_update 3) (fun t => t) ze_diff (fun p m b n => ze_loss 1 (get_all_params (Dict [("a"%string, Leaf 1)]) p) m tt b n) [1; 1]
    (1%nat, Dict [("w"%string, Leaf 10)], 0, None) s' -> get_all_params (Dict [("a"%string, Leaf 1)]) (snd (fst (fst s'))) = ze_params 1 4.
Proof.
  intros s' H. inversion H as [|b bs n p os m p' os' s E H1]; subst. vm_compute in E. injection E as <- <-.
  inversion H1 as [|b bs n p os m p' os' s E H2]; subst. vm_compute in E. injection E as <- <-. inversion H2; subst. reflexivity.
Qed.
Lemma ze_refuted : exists s, ze_fit (ze_cfg 3 true 1) (Some (ze_map_run 1 false 1)) ze_random (fun _ => [1; 1]) 1 = Ok [s] /\
  forall s', descent (B := Z) (ze_update 3) (fun t => t) ze_diff (fun p m b n => ze_loss 1 (get_all_params (Dict [("a"%string, Leaf 1)]) p) m tt b n) [1; 1]
    (1%nat, Dict [("w"%string, Leaf 10)], 0, None) s' -> get_all_params (Dict [("a"%string, Leaf 1)]) (snd (fst (fst s'))) <> t_params s.
Proof.
  eexists. split; [vm_compute; reflexivity|]. intros s' H. rewrite (ze_own_elsewhere s' H). discriminate.
Qed.
