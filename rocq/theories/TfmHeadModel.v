(** Model of what the transformers of SNGP compute from the outputs of a pretrained transformer:
    fortuna/prob_model/posterior/sngp/transformers/models/modeling_flax_bert.py (bert below),
    modeling_flax_distilbert.py (distilbert) and modeling_flax_roberta.py (roberta).

    The transformer itself (FlaxBertModule, FlaxDistilBertModule, FlaxRobertaModule of the transformers
    library) and roberta's create_position_ids_from_input_ids are parameters.  Arrays of shape (texts,
    features) are lists of vectors.  Not modelled: attentions and hidden states as further outputs, the
    conversion of arrays to 32 bit integers; variables and mutable collections are in TfmModel.v. *)
From Coq Require Import List Arith Bool Reals.
From Verif Require Import Lib LapModel SngpModel TfmModel.
Import ListNotations.
Open Scope list_scope.
Open Scope R_scope.

Inductive arch := Bert | DistilBert | Roberta.

(** ---- the arguments of __call__ (bert:138-156, distilbert:113-125, roberta:140-158) ---- *)
Record texts := {
  t_ids : list (list nat);
  t_mask : option (list (list nat));
  t_types : option (list (list nat));
  t_positions : option (list (list nat));
  t_heads : option (list (list nat)) }.
(** what the transformer is called with; distilbert takes tokens and mask only *)
Record tokens := {
  k_ids : list (list nat);
  k_mask : list (list nat);
  k_more : option (list (list nat) * list (list nat) * list (list nat)) }.
Definition like (v : nat) (ids : list (list nat)) : list (list nat) := map (map (fun _ => v)) ids.
(** distilbert:113-125: token types and positions are no arguments of distilbert, a head mask is ignored *)
Definition accepted (a : arch) (t : texts) : result unit :=
  match a, t_types t, t_positions t with DistilBert, Some _, _ | DistilBert, _, Some _ => Err TypeError | _, _, _ => Ok tt end.
(** bert:171-185, distilbert:140-141, roberta:173-187; [layers] and [heads] are those of the configuration *)
Definition fill_inputs (a : arch) (layers heads : nat) (roberta_positions : list (list nat) -> list (list nat)) (t : texts) : tokens :=
  let ids := t_ids t in
  {| k_ids := ids;
     k_mask := match t_mask t with Some m => m | None => like 1 ids end;
     k_more := match a with
       | DistilBert => None
       | _ => Some (match t_types t with Some y => y | None => like 0 ids end,
                    match t_positions t with
                    | Some p => p
                    | None => match a with Roberta => roberta_positions ids | _ => map (fun row => seq 0 (List.length row)) ids end
                    end,
                    match t_heads t with Some h => h | None => repeat (repeat 1%nat heads) layers end)
       end |}.

(** ---- the head ---- *)
(** outputs of the transformer: hidden states of the tokens of every text; pooled vectors *)
Record encoded := { e_hidden : list (list vec); e_pooled : list vec }.
(** distilbert:67-68 takes the first token (a text without tokens is not covered), bert:81 and roberta:83 the pooled vector *)
Definition text_vectors (a : arch) (e : encoded) : result (list vec) :=
  match a with
  | DistilBert => mapM (fun toks => match toks with [] => Err IndexError | h :: _ => Ok h end) (e_hidden e)
  | _ => Ok (e_pooled e)
  end.
(** bert:83, distilbert:70, roberta:85 *)
Definition activation (a : arch) (x : R) : R := match a with Roberta => tanh x | _ => Rmax x 0 end.
(** bert:82, distilbert:69, roberta:84: Dense with the kernel of spectral_norm.py *)
Definition dense (n_in : nat) (kernel : mat) (bias x : vec) : vec := fun j => kernel_apply n_in kernel x j + bias j.
(** flax.linen.Dropout; [keep] is the random mask of the text *)
Definition dropout (rate : R) (deterministic : bool) (keep : nat -> bool) (x : vec) : vec := fun j =>
  if deterministic then x j
  else if Req_EM_T rate 0 then x j
  else if Req_EM_T rate 1 then 0
  else if keep j then x j / (1 - rate) else 0.
(** bert:81-84, distilbert:67-71, roberta:83-86; [keep i] is the mask of text [i] *)
Definition features (a : arch) (n_in : nat) (kernel : mat) (bias : vec) (rate : R) (train : bool) (keep : nat -> nat -> bool) (e : encoded) : result (list vec) :=
  rmap (fun xs => map (fun ix => dropout rate (negb train) (keep (fst ix)) (fun j => activation a (dense n_in kernel bias (snd ix) j)))
                      (combine (seq 0 (List.length xs)) xs)) (text_vectors a e).

(** ---- the whole call.  [others]: outputs of the transformer after the first, returned as they are without
    return_dict (bert:86-89); return_dict comes from the configuration unless given (bert:166-168); in
    training with mutable collections module.apply also returns the new ones. ---- *)
Section Call.
Context {M : Type}.
Variable encode : tokens -> bool -> encoded.
Variable others : encoded -> list (list vec).
Variable updated : tokens -> M -> M.
Definition sngp_call (a : arch) layers heads roberta_positions n_in kernel bias rate (config_return_dict : bool) (return_dict : option bool)
    (keep : nat -> nat -> bool) (t : texts) (train : bool) (mutable : option M) : result (hf_output (list vec) M) :=
  bind (accepted a t) (fun _ =>
  let k := fill_inputs a layers heads roberta_positions t in
  let e := encode k train in
  rmap (fun fs =>
    let rd := match return_dict with Some b => b | None => config_return_dict end in
    let out := if rd then Plain_out fs else Tuple_out fs (others e) in
    match mutable with Some m => if train then With_mutable out (updated k m) else out | None => out end)
  (features a n_in kernel bias rate train keep e)).
(** model_manager/transformers/classification.py:33-86 with this model *)
Definition sngp_manager a layers heads roberta_positions n_in kernel bias rate config_return_dict return_dict keep t train mutable : result (hf_output (list vec) M * option M) :=
  bind (sngp_call a layers heads roberta_positions n_in kernel bias rate config_return_dict return_dict keep t train mutable) (fun out =>
  hf_apply (fun _ => out) train mutable).
End Call.
