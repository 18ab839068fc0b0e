(** Properties of the probit corrections. *)
From Coq Require Import List Arith ZArith Bool Reals Lra Lia.
From Verif Require Import Lib TempModel TempSpec PredSpec LapModel LapSpec SngpSpec ProbitModel ProbitSpec ProbitProofs2 ProbitProofs3 ProbitProofs4 ProbitProofs5 ProbitCases.
Import ListNotations.
Open Scope R_scope.

(** C90 *)
Theorem C90_full : forall np J log_var f o, (o < length f)%nat ->
  nth o (probit_scaling np J None log_var f) 0 = nth o f 0 / (1 + PI / 8 * exp log_var * inner np (J o) (J o)).
Proof. exact (@probit_full). Qed.
Print Assumptions C90_full.
Theorem C90_top_k : forall np J k log_var f, (1 <= k <= length f)%nat -> exists chosen m,
  length chosen = k /\ NoDup chosen /\ (forall i, In i chosen -> (i < length f)%nat) /\
  (forall i j, In i chosen -> (j < length f)%nat -> ~ In j chosen -> nth j f 0 <= nth i f 0) /\
  (exists i, In i chosen /\ m = inner np (J i) (J i)) /\ (forall i, In i chosen -> inner np (J i) (J i) <= m) /\
  forall o, (o < length f)%nat ->
  nth o (probit_scaling np J (Some k) log_var f) 0 = nth o f 0 / (1 + PI / 8 * exp log_var * (if in_dec Nat.eq_dec o chosen then inner np (J o) (J o) else m)).
Proof. exact (@probit_top_k). Qed.
Print Assumptions C90_top_k.
Theorem C90_shrinks : forall np J top_k lv lv' f o, lv <= lv' -> (o < length f)%nat ->
  length (probit_scaling np J top_k lv f) = length f /\
  Rabs (nth o (probit_scaling np J top_k lv' f) 0) <= Rabs (nth o (probit_scaling np J top_k lv f) 0) <= Rabs (nth o f 0) /\
  (0 < nth o f 0 -> 0 < nth o (probit_scaling np J top_k lv f) 0) /\ (nth o f 0 < 0 -> nth o (probit_scaling np J top_k lv f) 0 < 0).
Proof. exact (@probit_shrinks). Qed.
Print Assumptions C90_shrinks.
Theorem C90_top_zero : forall np J lv f, probit_scaling np J (Some 0%nat) lv f = probit_scaling np J None lv f.
Proof. exact (@probit_top_zero). Qed.
Print Assumptions C90_top_zero.
Theorem C90_argmax_refuted : exists np J lv f, nth 1 f 0 < nth 0 f 0 /\ 0 < nth 1 f 0 /\ nth 0 (probit_scaling np J None lv f) 0 < nth 1 (probit_scaling np J None lv f) 0.
Proof. exact (@probit_argmax_refuted). Qed.
Print Assumptions C90_argmax_refuted.
Example C90_case : probit_scaling 2 jac2 (Some 1%nat) 0 [3; 5] = [3 / (1 + PI / 8 * 1 * 4); 5 / (1 + PI / 8 * 1 * 4)].
Proof. exact case_top_k. Qed.

(** C91 *)
Theorem C91_scales : forall np B seq_length n_final G K inv c, (1 <= B)%nat -> (1 <= n_final <= seq_length)%nat -> inverts B inv ->
  let init := (seq_length - n_final + 1)%nat in
  (forall t s a b, (init <= t)%nat -> (init <= s)%nat -> (a < B)%nat -> (b < B)%nat -> K t s a b = inner np (G t a) (G s b)) ->
  independent np (n_final * B) (token_rows B init G) c ->
  length (diag_Cs B n_final K inv seq_length n_final) = n_final /\
  forall i a, (i < n_final)%nat -> (a < B)%nat ->
  squared_distance np (i * B) (token_rows B init G) (G (init + i)%nat a) (nth i (diag_Cs B n_final K inv seq_length n_final) (fun _ => 0) a).
Proof. exact (@sequential_scales). Qed.
Print Assumptions C91_scales.
Theorem C91_bounds : forall np B seq_length n_final G K inv c i a, (1 <= B)%nat -> (1 <= n_final <= seq_length)%nat -> inverts B inv ->
  (forall t s a b, (seq_length - n_final + 1 <= t)%nat -> (seq_length - n_final + 1 <= s)%nat -> (a < B)%nat -> (b < B)%nat -> K t s a b = inner np (G t a) (G s b)) ->
  independent np (n_final * B) (token_rows B (seq_length - n_final + 1) G) c -> (i < n_final)%nat -> (a < B)%nat ->
  0 <= nth i (diag_Cs B n_final K inv seq_length n_final) (fun _ => 0) a <= inner np (G (seq_length - n_final + 1 + i)%nat a) (G (seq_length - n_final + 1 + i)%nat a).
Proof. exact (@sequential_bounds). Qed.
Print Assumptions C91_bounds.
Theorem C91_output : forall np B n_final nf G K inv c log_var f, (1 <= B)%nat -> check_sizes (length f) n_final None = Ok (nf, nf) -> inverts B inv ->
  (forall x, In x f -> length x = B) ->
  let before := (length f - nf)%nat in
  (forall t s a b, (before + 1 <= t)%nat -> (before + 1 <= s)%nat -> (a < B)%nat -> (b < B)%nat -> K t s a b = inner np (G t a) (G s b)) ->
  independent np (nf * B) (token_rows B (before + 1) G) c ->
  exists out, sequential_probit inv B K log_var n_final None f = Ok out /\ length out = length f /\
  (forall t, (t < before)%nat -> nth t out [] = nth t f []) /\
  forall i, (i < nf)%nat -> length (nth (before + i) out []) = B /\ forall a, (a < B)%nat -> exists s,
    squared_distance np (i * B) (token_rows B (before + 1) G) (G (before + 1 + i)%nat a) s /\
    nth a (nth (before + i) out []) 0 = nth a (nth (before + i) f []) 0 / (1 + PI / 8 * exp log_var * s).
Proof. exact (@sequential_output). Qed.
Print Assumptions C91_output.
Theorem C91_sizes : forall seq_length n_final memory,
  match check_sizes seq_length n_final memory with
  | Ok (nf, m) => (1 <= m <= nf)%nat /\ (nf <= seq_length)%nat /\
      (match n_final with None => nf = seq_length | Some z => z = Z.of_nat nf end) /\ (match memory with None => m = nf | Some z => z = Z.of_nat m end)
  | Err e => e = ValueError /\
      ((exists z, n_final = Some z /\ (z <= 0 \/ Z.of_nat seq_length < z)%Z) \/ (n_final = None /\ seq_length = 0%nat) \/
       (exists z, memory = Some z /\ (z <= 0 \/ match n_final with None => Z.of_nat seq_length | Some n => n end < z)%Z))
  end.
Proof. exact (@sizes_check). Qed.
Print Assumptions C91_sizes.
Theorem C91_memory : forall np B n_final memory nf m G K inv c log_var f, (1 <= B)%nat -> check_sizes (length f) n_final memory = Ok (nf, m) -> inverts B inv ->
  (forall x, In x f -> length x = B) ->
  let before := (length f - nf)%nat in
  (forall t s a b, (before + 1 <= t)%nat -> (before + 1 <= s)%nat -> (a < B)%nat -> (b < B)%nat -> K t s a b = inner np (G t a) (G s b)) ->
  independent np (m * B) (token_rows B (before + 1) G) c ->
  exists out, sequential_probit inv B K log_var n_final memory f = Ok out /\ length out = length f /\
  (forall t, (t < before)%nat -> nth t out [] = nth t f []) /\
  (forall i, (i < nf)%nat -> length (nth (before + i) out []) = B) /\
  forall i a, (i < m)%nat -> (a < B)%nat -> exists s,
    squared_distance np (i * B) (token_rows B (before + 1) G) (G (before + 1 + i)%nat a) s /\
    nth a (nth (before + i) out []) 0 = nth a (nth (before + i) f []) 0 / (1 + PI / 8 * exp log_var * s).
Proof. exact (@sequential_memory). Qed.
Print Assumptions C91_memory.
Theorem C91_memory_refuted : exists np G K inv c, inverts 1 inv /\
  (forall t s a b, K t s a b = inner np (G t a) (G s b)) /\ independent np 3 (token_rows 1 1 G) c /\
  forall log_var, exists out, sequential_probit inv 1 K log_var None (Some 1%Z) [[1]; [1]; [1]] = Ok out /\ nth 0 (nth 2 out []) 0 = 1 / (1 - PI / 8 * exp log_var).
Proof. exact (@memory_output_refuted). Qed.
Print Assumptions C91_memory_refuted.
Theorem C91_top_k_values : forall n_outputs indices diagC o, diagC <> [] -> (o < n_outputs)%nat -> In (nth o (topk_scales n_outputs indices diagC) 0) diagC.
Proof. exact (@top_k_values). Qed.
Print Assumptions C91_top_k_values.
Theorem C91_top_k_refuted : exists f d0 d1, top_indices 2 f = [1; 0]%nat /\ d0 <> d1 /\ nth 0 (topk_scales 2 (top_indices 2 f) [d1; d0]) 0 = d1 /\ nth 1 (topk_scales 2 (top_indices 2 f) [d1; d0]) 0 = d0.
Proof. exact (@top_k_refuted). Qed.
Print Assumptions C91_top_k_refuted.
Example C91_case : nth 1 (diag_Cs 1 2 (fun t s a b => inner 3 (rows3 t a) (rows3 s b)) inv1 2 2) (fun _ => 0) 0%nat = 1 /\ inner 3 (rows3 2 0) (rows3 2 0) = 2.
Proof. exact case_sequential. Qed.
Example C91_case_check : check_sizes 4 (Some 3%Z) (Some 5%Z) = Err ValueError /\ check_sizes 4 (Some 3%Z) None = Ok (3%nat, 3%nat).
Proof. exact case_check. Qed.
