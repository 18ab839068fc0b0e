(** Vocabulary for fits of normalizing flows. *)
From Coq Require Import List Arith ZArith QArith.
From Verif Require Import DescSpec.
Import ListNotations.
Open Scope list_scope.

(** mean of a list *)
Definition average_of (l : list Q) : Q := (total_of l / inject_Z (Z.of_nat (length l)))%Q.
(** the point of the Gaussian with the given means and logarithms of standard deviations, widened by
    exp(lb), that corresponds to standard normal numbers z *)
Definition placed (ex : Q -> Q) (lb : Q) (mean log_std z : list Q) : list Q :=
  map (fun q => (fst (fst q) + ex (snd (fst q)) * (ex lb * snd q))%Q) (combine (combine mean log_std) z).
