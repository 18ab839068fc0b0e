(** Concrete cases for hallucination detection. *)
From Coq Require Import List Arith ZArith QArith Bool Ascii String Reals Lra Lia.
From Verif Require Import Lib QuantModel ConfRegModel ConfClassModel MultiModel TextModel HallModel HallSpec HallProofs HallProofs2 HallProofs3 HallProofs4.
Import ListNotations.
Local Notation length := List.length.
Open Scope list_scope.

Definition chars (s : string) : list ascii := list_ascii_of_string s.
Definition text (l : list ascii) : string := string_of_list_ascii l.

(** a flow on numbers: a text is its score in percent, the embedding is the score, one group for
    scores above one half *)
Definition toy_score (ts : list nat) (cs : list nat) : result (list (Q * Q)) :=
  if (length ts =? length cs)%nat then Ok (map (fun p => (inject_Z (Z.of_nat (fst p)) / 100, inject_Z (Z.of_nat (snd p)))%Q) (combine ts cs)) else Err RuntimeError.
Definition toy_reduce_fit (r : unit) (es : list Q) : result (unit * list Q) := Ok (tt, es).
Definition toy_reduce (r : unit) (es : list Q) : result (list Q) := Ok es.
Definition toy_group_fit (es : list (Q * Q)) : result unit := Ok tt.
Definition toy_proba (g : unit) (es : list (Q * Q)) : list (list Q) := map (fun e => [snd e; (1 - snd e)%Q]) es.
Definition toy_cfg : config := {| n_buckets := 2; taus := [0%nat]; n_groups := 3; n_dims := 1; min_prob := 0; ptype_of := Additive; eta := 1; atol := 0; rtol := 0 |}.
(** one patch: points of the last group in the upper bucket get a fifth less *)
Definition toy_calibrate (ps : list Q) (ys : list Z) (gs : list (list bool)) : result (list (key * Q)) :=
  Ok [({| k_tau := 0; k_g := 2; k_v := (3 # 4)%Q; k_c := 0 |}, (- (1 # 5))%Q)].
Definition toy_fit := hm_fit toy_score toy_reduce_fit toy_group_fit toy_proba (fun _ => 2%nat) toy_cfg toy_calibrate.
Definition toy_predict_proba := hm_predict_proba toy_score toy_reduce toy_proba.
Definition toy_predict := hm_predict toy_score toy_reduce toy_proba.
Definition toy_fitted := fst (toy_fit (hobject0 tt) [10; 60; 90]%nat [1; 2; 3]%nat [0; 1; 1]%Z 2 (4 # 5)).
Definition toy_failed := fst (toy_fit (hobject0 tt) [10; 60; 90]%nat [1; 2; 3]%nat [1; 1; 1]%Z 2 (4 # 5)).
Definition red (r : result (list Q)) : result (list Q) := rmap (map Qred) r.

(** two positions after the first token, probabilities 3/4 and 1/4 *)
Lemma toy_score_value : exists x, inv_perplexity [[0; ln 3]; [0; ln 3]; [0; ln 3]]%R [0; 1; 0]%nat 2 = Ok (Some x) /\ (x * x = 3 / 16)%R.
Proof.
  destruct (geometric [[0; ln 3]; [0; ln 3]; [0; ln 3]]%R [0; 1; 0]%nat 2 eq_refl) as (y & Y1 & Y2 & Y3).
  { intros i Hi. cbn [List.length] in Hi. destruct i as [|[|[|i]]]; try lia; cbn; lia. } { cbn [List.length]. lia. }
  exists y. split; [exact Y1|]. unfold next_token_probs in Y3. cbn [List.length Nat.sub seq map nth] in Y3. rewrite toy_prob1, toy_prob0 in Y3. unfold product in Y3. cbn [fold_right pow] in Y3. lra.
Qed.
Lemma not_idempotent : exists t, string_cleaner (string_cleaner t) <> string_cleaner t.
Proof. exists (chars "x , , y"). vm_compute. discriminate. Qed.
Lemma space_before_punctuation : exists t a b, string_cleaner t = a ++ [" "; ","; " "]%char ++ b.
Proof. exists (chars "x , , y"), (chars "X,"), (chars "y"). vm_compute. reflexivity. Qed.
Lemma no_capital_refuted : exists t a x b, string_cleaner t = a ++ ["."; " "]%char ++ x :: b /\ (97 <= nat_of_ascii x <= 122)%nat.
Proof. exists (chars "the sky is blue. The sun is hot."), (chars "The sky is blue"), "t"%char, (chars "he sun is hot."). vm_compute. split; [reflexivity|split; lia]. Qed.
Lemma number_split : string_cleaner (chars "3.14") = chars "3. 14".
Proof. vm_compute. reflexivity. Qed.
