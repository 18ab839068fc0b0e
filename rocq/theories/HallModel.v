(** Model of fortuna/hallucination: scoring/inv_perplexity.py, grouping/clustering/base.py, base.py
    and utils/string.py.

    The language model, the tokenizer, the embedding reduction and the clustering models are
    parameters.  Characters are ASCII.  Not modelled: devices, data types, pickling of the objects
    themselves. *)
From Coq Require Import List Arith ZArith QArith Bool Ascii Reals.
From Verif Require Import Lib QuantModel ConfRegModel ConfClassModel TempModel PredModel MultiModel TextModel.
Import ListNotations.
Local Notation length := List.length.
Local Notation concat := List.concat.
Open Scope list_scope.
Local Notation "a >>= f" := (bind a f) (at level 61, left associativity).

(** ---- scoring/inv_perplexity.py ---- *)
Section Perplexity.
Open Scope R_scope.
(** torch CrossEntropyLoss(reduction="none") of one position *)
Definition token_loss (logits : list R) (y : nat) : R := lse logits - nth y logits 0.
(** lines 7-13: the logits of a position score the next label; a label that is not in the
    vocabulary raises IndexError *)
Definition token_losses (logits : list (list R)) (labels : list nat) : result (list R) :=
  if forallb (fun p => (snd p <? length (fst p))%nat) (combine (removelast logits) (tl labels))
  then Ok (map (fun p => token_loss (fst p) (snd p)) (combine (removelast logits) (tl labels)))
  else Err IndexError.
(** x[-n:], where x[-0:] is all of x *)
Definition last_n {A} (n : nat) (l : list A) : list A := if (n =? 0)%nat then l else skipn (length l - n) l.
(** lines 6-15 for one sequence; the mean of nothing is not a number *)
Definition perplexity (logits : list (list R)) (labels : list nat) (n_final_tokens : nat) : result (option R) :=
  token_losses logits labels >>= fun ls =>
  match last_n n_final_tokens ls with
  | [] => Ok None
  | l => Ok (Some (exp (rmean l)))
  end.
(** lines 19-20 *)
Definition inv_perplexity (logits : list (list R)) (labels : list nat) (n_final_tokens : nat) : result (option R) :=
  perplexity logits labels n_final_tokens >>= fun p => Ok (match p with Some x => Some (1 / x) | None => None end).

(** base.py:270-292: contexts and texts are padded to the longest of the batch on the right, the
    language model sees tokens and attention mask *)
Definition pad_to {A} (x : A) (n : nat) (l : list A) : list A := l ++ repeat x (n - length l).
Definition longest {A} (ls : list (list A)) : nat := fold_right Nat.max 0%nat (map (@length A) ls).
Definition score_batch (lm : list nat -> list bool -> list (list R)) (pad : nat) (batch : list (list nat * list nat)) : list (result (option R)) :=
  let nc := longest (map fst batch) in
  let nt := longest (map snd batch) in
  map (fun p =>
    let ids := pad_to pad nc (fst p) ++ pad_to pad nt (snd p) in
    let mask := pad_to false nc (map (fun _ => true) (fst p)) ++ pad_to false nt (map (fun _ => true) (snd p)) in
    inv_perplexity (lm ids mask) ids nt) batch.
End Perplexity.

(** ---- grouping/clustering/base.py ---- *)
(** lines 125-133: [bic] is [None] when it is infinite or not a number; with no model better than
    infinity the variable is unbound *)
Fixpoint best_model {M F} (fit : M -> F) (bic : F -> option Q) (models : list M) (best : option (Q * F)) : option (Q * F) :=
  match models with
  | [] => best
  | m :: r =>
      let f := fit m in
      best_model fit bic r (match bic f, best with
                            | Some b, None => Some (b, f)
                            | Some b, Some (b0, _) => if Qlt_bool b b0 then Some (b, f) else best
                            | None, _ => best
                            end)
  end.
Definition fit_best_model {M F} (fit : M -> F) (bic : F -> option Q) (models : list M) : result F :=
  match best_model fit bic models None with Some (_, f) => Ok f | None => Err UnboundLocalErr end.
(** lines 109-111: a quantile for each of the [k] columns *)
Definition compute_quantile (k : nat) (probs : list (list Q)) (threshold : Q) : list Q :=
  map (fun j => quantile (map (fun row => nth j row 0%Q) probs) threshold) (seq 0 k).
(** lines 59-79 *)
Definition soft_predict (k : nat) (probs : list (list Q)) (threshold : Q) : list (list bool) :=
  map (fun row => zip_with (fun p q => Qlt_bool q p) row (compute_quantile k probs threshold)) probs.
(** lines 81-103 *)
Definition hard_predict (probs : list (list Q)) : list (list bool) :=
  map (fun row => map (fun j => (j =? argmax row)%nat) (seq 0 (length row))) probs.
(** lines 113-123 for one column of the embeddings; None where the standard deviation is 0 *)
Section Normalize.
Open Scope R_scope.
Definition column_std (xs : list R) : R := sqrt (rmean (map (fun x => (x - rmean xs) * (x - rmean xs)) xs)).
Definition normalize (train xs : list R) : option (list R) :=
  if Req_EM_T (column_std train) 0 then None else Some (map (fun x => (x - rmean train) / column_std train) xs).
End Normalize.

(** ---- base.py ---- *)
(** lines 239-243 *)
Definition get_groups (quantiles : list Q) (scores : list (list Q)) : list (list bool) :=
  map (fun row => zip_with (fun p q => Qle_bool q p) row quantiles ++ [true]) scores.
(** the attributes that fit sets: the fitted grouping model inside the grouping object, the
    quantiles, and the patches inside the multicalibrator *)
Record hobject (Rd G : Type) := { h_red : Rd; h_group : option (option G); h_quant : option (list Q); h_cal : option (config * list (key * Q)) }.
Arguments h_red {Rd G} h.
Arguments h_group {Rd G} h.
Arguments h_quant {Rd G} h.
Arguments h_cal {Rd G} h.
Definition hobject0 {Rd G} (red : Rd) : hobject Rd G := {| h_red := red; h_group := None; h_quant := None; h_cal := None |}.
Section Flow.
Variables Rd G E T C : Type.
(** scores and embeddings of a batch of texts and contexts *)
Variable score : list T -> list C -> result (list (Q * E)).
(** fit_transform and transform of the embedding reduction model; the reduced embeddings are
    joined with the scores *)
Variable reduce_fit : Rd -> list E -> result (Rd * list E).
Variable reduce : Rd -> list E -> result (list E).
(** fit and predict_proba of the grouping model; the number of clusters *)
Variable group_fit : list (E * Q) -> result G.
Variable group_proba : G -> list (E * Q) -> list (list Q).
Variable clusters : G -> nat.
(** BinaryClassificationMulticalibrator.calibrate after the check of the targets, with its default
    configuration *)
Variable cfg : config.
Variable calibrate : list Q -> list Z -> list (list bool) -> result (list (key * Q)).

(** lines 245-263: concatenation of the batches; the progress bar divides by the batch size *)
Definition compute_scores (texts : list T) (contexts : list C) (batch_size : nat) : result (list (Q * E)) :=
  if (batch_size =? 0)%nat then Err ZeroDivisionError else
  hbatch texts contexts batch_size >>= fun bs =>
  mapM (fun b => score (fst b) (snd b)) bs >>= fun rs =>
  match rs with [] => Err ValueError | _ => Ok (concat rs) end.

(** lines 77-148 without balancing: the object is changed step by step, also when a later step
    raises *)
Definition hm_fit (h : hobject Rd G) (texts : list T) (contexts : list C) (targets : list Z) (batch_size : nat) (threshold : Q) : hobject Rd G * result unit :=
  match compute_scores texts contexts batch_size with
  | Err e => (h, Err e)
  | Ok se =>
      match reduce_fit (h_red h) (map snd se) with
      | Err e => (h, Err e)
      | Ok (red, emb) =>
          let emb := combine emb (map fst se) in
          match group_fit emb with
          | Err e => ({| h_red := red; h_group := Some None; h_quant := h_quant h; h_cal := h_cal h |}, Err e)
          | Ok g =>
              let scores := group_proba g emb in
              let q := compute_quantile (clusters g) scores threshold in
              if Qlt_bool threshold 0 || Qlt_bool 1 threshold
              then ({| h_red := red; h_group := Some (Some g); h_quant := h_quant h; h_cal := h_cal h |}, Err ValueError)
              else
              match check_binary_targets targets >>= fun _ => calibrate (map fst se) targets (get_groups q scores) with
              | Err e => ({| h_red := red; h_group := Some (Some g); h_quant := Some q; h_cal := Some (cfg, []) |}, Err e)
              | Ok ps => ({| h_red := red; h_group := Some (Some g); h_quant := Some q; h_cal := Some (cfg, ps) |}, Ok tt)
              end
          end
      end
  end.
(** lines 150-196 *)
Definition hm_predict_proba (h : hobject Rd G) (texts : list T) (contexts : list C) (batch_size : nat) (calibrated : bool) : result (list Q) :=
  match h_cal h with
  | None => Err ValueError
  | Some (c, ps) =>
      compute_scores texts contexts batch_size >>= fun se =>
      if negb calibrated then Ok (map fst se)
      else
        reduce (h_red h) (map snd se) >>= fun emb =>
        match h_group h, h_quant h with
        | Some (Some g), Some q => Ok (apply_patches multicalibrator c ps (get_groups q (group_proba g (combine emb (map fst se)))) (map fst se))
        | Some None, _ => Err AttributeError
        | _, _ => Err TypeError
        end
  end.
(** lines 198-237 *)
Definition hm_predict (h : hobject Rd G) (texts : list T) (contexts : list C) (batch_size : nat) (calibrated : bool) (probs : option (list Q)) : result (list nat) :=
  match probs with Some p => Ok p | None => hm_predict_proba h texts contexts batch_size calibrated end >>= fun p =>
  Ok (map (fun x => if Qle_bool (1 # 2) x then 1%nat else 0%nat) p).
End Flow.
Arguments compute_scores {E T C}.
Arguments hm_fit {Rd G E T C}.
Arguments hm_predict_proba {Rd G E T C}.
Arguments hm_predict {Rd G E T C}.
(** lines 309-323: all four attributes are written and set again *)
Definition hm_save {Rd G} (h : hobject Rd G) : Rd * option (option G) * option (config * list (key * Q)) * option (list Q) := (h_red h, h_group h, h_cal h, h_quant h).
Definition hm_load {Rd G} (file : Rd * option (option G) * option (config * list (key * Q)) * option (list Q)) (h : hobject Rd G) : hobject Rd G :=
  let '(r, g, c, q) := file in {| h_red := r; h_group := g; h_quant := q; h_cal := c |}.

(** ---- utils/string.py ---- *)
(** whitespace for str.strip and for \s *)
Definition is_space (c : ascii) : bool := let n := nat_of_ascii c in ((9 <=? n) && (n <=? 13) || (28 <=? n) && (n <=? 32))%nat.
Definition is_upper (c : ascii) : bool := let n := nat_of_ascii c in ((65 <=? n) && (n <=? 90))%nat.
Definition is_lower (c : ascii) : bool := let n := nat_of_ascii c in ((97 <=? n) && (n <=? 122))%nat.
Definition to_lower (c : ascii) : ascii := if is_upper c then ascii_of_nat (nat_of_ascii c + 32) else c.
Definition to_upper (c : ascii) : ascii := if is_lower c then ascii_of_nat (nat_of_ascii c - 32) else c.
Definition is_punct (c : ascii) : bool := existsb (Ascii.eqb c) ["?"; "."; ","; "%"; "!"; """"]%char.
(** line 17: re.sub removes a whitespace before a punctuation mark that is followed by whitespace
    or the end; the whitespace after the mark is consumed by the match *)
Fixpoint drop_space (l : list ascii) : list ascii :=
  match l with
  | s :: ((p :: rest) as tail) =>
      if is_space s && is_punct p then
        match rest with
        | [] => [p]
        | w :: rest' => if is_space w then p :: w :: drop_space rest' else s :: drop_space tail
        end
      else s :: drop_space tail
  | _ => l
  end.
Fixpoint lstrip (l : list ascii) : list ascii := match l with c :: r => if is_space c then lstrip r else l | [] => [] end.
Definition strip (l : list ascii) : list ascii := rev (lstrip (rev (lstrip l))).
Definition capitalize (l : list ascii) : list ascii := match l with c :: r => to_upper c :: map to_lower r | [] => [] end.
Fixpoint split_on (c : ascii) (l : list ascii) : list (list ascii) :=
  match l with
  | [] => [[]]
  | x :: r => if Ascii.eqb x c then [] :: split_on c r else match split_on c r with s :: ss => (x :: s) :: ss | [] => [[x]] end
  end.
Fixpoint join (sep : list ascii) (ls : list (list ascii)) : list ascii :=
  match ls with [] => [] | [s] => s | s :: r => s ++ sep ++ join sep r end.
(** str.replace(" ' ", "'") *)
Fixpoint unquote (l : list ascii) : list ascii :=
  match l with
  | a :: ((b :: c :: rest) as tail) => if (Ascii.eqb a " " && Ascii.eqb b "'" && Ascii.eqb c " ")%char then "'"%char :: unquote rest else a :: unquote tail
  | _ => l
  end.
(** line 19-21: one kind of sentence end *)
Definition sentences (c : ascii) (l : list ascii) : list ascii := join [c; " "%char] (map (fun s => capitalize (strip s)) (split_on c l)).
(** lines 4-24 *)
Definition string_cleaner (text : list ascii) : list ascii :=
  let t := drop_space text in
  let t := sentences "." t in
  let t := sentences "?" t in
  let t := sentences "!" t in
  unquote (join [" "; "'"; " "]%char (map strip (split_on "'" t))).
