(** Toy runs used by the examples of MonProps.v. *)
From Coq Require Import List Arith ZArith QArith Bool String.
From Verif Require Import Lib QuantModel TrainModel CalibModel MonModel.
Import ListNotations.
Open Scope list_scope.

(** the state counts steps; the loss falls and the accuracy grows with it *)
Definition toy_run (r : run_kind) (p : option Z) (name : string) (epochs : nat) :=
  run (fun s : nat => s) (fun s (b : nat) key => (S s, [0%Q]))
    (fun s (v : nat) => [(- inject_Z (Z.of_nat s))%Q; (inject_Z (Z.of_nat s) / 100)%Q])
    (fun s => s) (fun s => s) (fun s => s) r
    {| es_patience := p; es_monitor := name; es_min_delta := 0; eval_every_n_epochs := 2 |}
    ["accuracy"%string] 0 epochs false None [1; 2]%nat (Some [1]%nat) 0%nat.
Definition toy_calib_run (p : option Z) (name : string) (epochs : nat) :=
  calib_run (fun s : nat => s) (fun s (b o : nat) key => (S s, [0%Q]))
    (fun s (v w : nat) => [(- inject_Z (Z.of_nat s))%Q; (inject_Z (Z.of_nat s) / 100)%Q])
    {| es_patience := p; es_monitor := name; es_min_delta := 0; eval_every_n_epochs := 2 |}
    ["accuracy"%string] epochs false None [1; 2]%nat [1; 2]%nat (Some ([1], [1])%nat) 0%nat.
Definition toy_lengths {T} (x : result (T * nat * list (list Q) * list (list Q))) : result (nat * nat) :=
  rmap (fun y => let '(_, _, ms, mvs) := y in (List.length ms, List.length mvs)) x.
