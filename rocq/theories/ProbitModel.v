(** Model of fortuna/utils/grad.py, fortuna/utils/probit.py and fortuna/model_editor/probit.py
    for one input (the functions are vectorised over inputs). Jacobians are functions of output
    and parameter index; real arithmetic. *)
From Coq Require Import List Arith Bool ZArith Reals.
From Verif Require Import Lib ConfClassModel TempModel LapModel SngpModel.
Import ListNotations.
Local Notation "a >>= f" := (bind a f) (at level 61, left associativity).
Open Scope R_scope.

(** jnp.argsort(l)[-k:]; Python's [-0:] is the whole array *)
Definition last_k {A} (k : nat) (l : list A) : list A := match k with O => l | _ => skipn (length l - k) l end.
Definition top_indices (k : nat) (f : list R) : list nat := last_k k (argsort Rleb 0 f).

(** ---- grad.py:33-97 ---- *)
(** lines 80-86 for one output: [np] parameters *)
Definition row_norm (np : nat) (J : nat -> nat -> R) (o : nat) : R := isum np (fun p => J o p ^ 2).
Definition rmax (l : list R) : R := match l with [] => 0 | x :: r => fold_right Rmax x r end.
(** array.at[i].set(v) *)
Fixpoint set_at (i : nat) (v : R) (l : list R) : list R :=
  match l, i with [], _ => [] | _ :: r, O => v :: r | x :: r, S i => x :: set_at i v r end.
(** lines 87-91 *)
Definition row_norms (np : nat) (J : nat -> nat -> R) (top_k : option nat) (f : list R) : list R :=
  match top_k with
  | None => map (row_norm np J) (seq 0 (length f))
  | Some k =>
      let idx := top_indices k f in
      let m := rmax (map (row_norm np J) idx) in
      fold_left (fun a i => set_at i (row_norm np J i) a) idx (map (fun _ => m * 1) f)
  end.
(** ---- probit.py:34-54 ---- *)
Definition scaled_output (log_var f scale : R) : R := f / (1 + PI / 8 * exp log_var * scale).
Definition probit_scaling (np : nat) (J : nat -> nat -> R) (top_k : option nat) (log_var : R) (f : list R) : list R :=
  map (fun q => scaled_output log_var (fst q) (snd q)) (combine f (row_norms np J top_k f)).

(** ---- probit.py:57-267 ---- *)
(** lines 106-117: number of final tokens and memory *)
Definition check_sizes (seq_length : nat) (n_final memory : option Z) : result (nat * nat) :=
  let nf := match n_final with None => Z.of_nat seq_length | Some z => z end in
  if ((nf <=? 0)%Z || (Z.of_nat seq_length <? nf)%Z)%bool then Err ValueError
  else let m := match memory with None => nf | Some z => z end in
       if ((m <=? 0)%Z || (nf <? m)%Z)%bool then Err ValueError else Ok (Z.to_nat nf, Z.to_nat m).
Section Sequential.
(** [B] block size, [mem] memory; [K t t'] the block of inner products of Jacobian rows of
    tokens t and t' (1-based, lines 131-162); [inv] is jnp.linalg.inv. The padding entries -1
    of old_taus are represented by token 0, for which [K] is arbitrary. *)
Variables B mem : nat.
Variable K : nat -> nat -> mat.
Variable inv : mat -> mat.
(** lines 166-169 *)
Definition compute_P (tau : nat) (old : list nat) : mat := fun a l => K tau (nth (l / B) old 0%nat) a (l mod B)%nat.
(** lines 175-197 *)
Definition seq_M (Jinv P : mat) : mat := fun a k => isum (mem * B) (fun l => P a l * Jinv l k).
Definition seq_C (tau : nat) (Jinv P : mat) : mat := fun a b => K tau tau a b - isum (mem * B) (fun l => seq_M Jinv P a l * P b l).
Definition seq_Jinv (tau : nat) (Jinv P : mat) : mat :=
  let M (a k : nat) := seq_M Jinv P a (B + k)%nat in
  let J (l k : nat) := Jinv (B + l)%nat (B + k)%nat in
  let Cinv := inv (seq_C tau Jinv P) in
  let MtCinv (k a : nat) := isum B (fun b => M b k * Cinv b a) in
  let q := (mem * B - B)%nat in
  fun l k =>
    if (l <? q)%nat then if (k <? q)%nat then J l k + isum B (fun a => MtCinv l a * M a k) else - MtCinv l (k - q)%nat
    else if (k <? q)%nat then - MtCinv k (l - q)%nat else Cinv (l - q)%nat (k - q)%nat.
Definition seq_step (carry : mat * list nat) (tau : nat) : (mat * list nat) * vec :=
  let '(Jinv, old) := carry in
  let P := compute_P tau old in
  ((seq_Jinv tau Jinv P, tl old ++ [tau]), fun a => seq_C tau Jinv P a a).
(** jax.lax.scan *)
Fixpoint scan (carry : mat * list nat) (taus : list nat) : list vec :=
  match taus with [] => [] | t :: r => let '(c, d) := seq_step carry t in d :: scan c r end.
(** lines 199-235 *)
Definition diag_Cs (seq_length n_final : nat) : list vec :=
  let init := (seq_length - n_final + 1)%nat in
  let C := K init init in
  let pad := ((mem - 1) * B)%nat in
  let Jinv := fun l k => if ((pad <=? l) && (pad <=? k))%nat then inv C (l - pad)%nat (k - pad)%nat else 0 in
  (fun a => C a a) :: (if (1 <? n_final)%nat then scan (Jinv, repeat 0%nat (mem - 1) ++ [init]) (seq (init + 1) (seq_length - init)) else []).
End Sequential.
(** lines 241-251 for one token: JAX clamps indices that are out of bounds *)
Definition clamp_nth (i : nat) (l : list R) : R := nth (Nat.min i (length l - 1)) l 0.
Definition topk_scales (n_outputs : nat) (indices : list nat) (diagC : list R) : list R :=
  fold_left (fun a i => set_at i (clamp_nth i diagC) a) indices (map (fun _ => rmax diagC) (seq 0 n_outputs)).
(** lines 253-260 without top_k: [f] outputs of the tokens, [scales] of the final ones *)
Definition scale_tokens (log_var : R) (n_final : nat) (f : list (list R)) (scales : list (nat -> R)) : list (list R) :=
  firstn (length f - n_final) f ++
  map (fun q => map (fun o => scaled_output log_var (nth o (fst q) 0) (snd q o)) (seq 0 (length (fst q)))) (combine (skipn (length f - n_final) f) scales).
(** the function without top_k for one input: [f] the outputs of the tokens *)
Definition sequential_probit (inv : mat -> mat) (B : nat) (K : nat -> nat -> mat) (log_var : R) (n_final memory : option Z) (f : list (list R)) : result (list (list R)) :=
  check_sizes (length f) n_final memory >>= fun nm =>
  Ok (scale_tokens log_var (fst nm) f (diag_Cs B (snd nm) K inv (length f) (fst nm))).
