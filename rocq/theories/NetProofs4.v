(** Sizes of the kernels of the convolutional network. *)
From Coq Require Import List Arith Lia.
From Verif Require Import Lib NetModel NetSpec NetProofs NetProofs2 NetProofs3.
Import ListNotations.
Lemma cnn_parameters : forall h w c output_dim,
  list_sum (map (fun k => fst k * snd k + snd k) (cnn_kernels output_dim (h, w, c))) =
  (9 * c + 1) * 32 + ((h - 2) / 2 * ((w - 2) / 2) * 32 + 1) * 128 + 129 * output_dim.
Proof.
  intros h w c o. unfold cnn_kernels. cbn [map fst snd]. rewrite cnn_flat_ok. cbn [list_sum fold_right]. generalize ((h - 2) / 2 * ((w - 2) / 2)). intros n. lia.
Qed.
