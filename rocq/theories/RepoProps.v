(** C16-C19: state repositories. *)
From Coq Require Import List Arith Lia Bool String.
From Verif Require Import Lib NestedModel NestedSpec RepoModel RepoSpec RepoProofs RepoProofs2 ExtraProofs.
Import ListNotations.
Open Scope list_scope.
Local Notation length := List.length.

(** sample data *)
Definition init0 (o : nat) (p : tree nat) : nat := 100 + o.
Definition st (n p : nat) : state nat nat :=
  mk_state n (Dict [("w"%string, Leaf p)]) 7 None None None (Some 5) (Some 1).

(** C16 *)

(** a checkpoint directory is a bounded stack of states, for every history *)
Theorem C16_disk_is_stack : forall V O (init : O -> tree V -> V) d xs w, dir_files d w = [] ->
  fst (run init xs w (mk_repo (Some d) None)) = fst (spec_run init xs []).
Proof. intros V O init d xs w. exact (disk_refines init d xs w). Qed.
Print Assumptions C16_disk_is_stack.

Theorem C16_disk_put_get : forall V O (init : O -> tree V -> V) d xs w s keep gets, dir_files d w = [] ->
  Forall (fun x => exists o, x = Get o) gets ->
  fst (run init (xs ++ Put s keep :: gets) w (mk_repo (Some d) None)) =
  fst (run init xs w (mk_repo (Some d) None)) ++ Done ::
  map (fun x => match x with Get o => Got (on_disk init s o) | _ => Done end) gets.
Proof. intros V O init d xs w s keep gets. exact (disk_put_get init d xs w s keep gets). Qed.
Print Assumptions C16_disk_put_get.

(** a memory repository is a cell *)
Theorem C16_memory_is_cell : forall V O (init : O -> tree V -> V) xs w r, r_dir r = None ->
  fst (run init xs w r) = fst (mem_run init xs (r_mem r)) /\ fst (snd (run init xs w r)) = w.
Proof. intros V O init xs w r. exact (mem_refines init xs w r). Qed.
Print Assumptions C16_memory_is_cell.

Theorem C16_memory_put_get : forall V O (init : O -> tree V -> V) xs w s keep n,
  fst (run init (xs ++ Put s keep :: repeat (Get None) n) w (mk_repo None None)) =
  fst (run init xs w (mk_repo None None)) ++ Done :: repeat (Got s) n.
Proof. intros V O init xs w s keep n. exact (mem_put_get init xs w s keep n). Qed.
Print Assumptions C16_memory_put_get.

Theorem C16_empty_get : forall V O (init : O -> tree V -> V) place w o,
  (forall d, place = Some d -> dir_files d w = []) ->
  fst (run_op init (Get o) w (mk_repo place None)) = Raised ValueError.
Proof. intros V O init place w o. exact (empty_get init place w o). Qed.
Print Assumptions C16_empty_get.

(** in memory, getting with an optimizer changes what later gets return, and
    pulling leaves the state in place (on disk it does neither) *)
Theorem C16_memory_get_optimizer_refuted : exists s : state nat nat,
  fst (run init0 [Put s 1; Get None; Get (Some 3); Get None] [] (mk_repo None None))
  <> [Done; Got s; Got (with_optimizer init0 s (Some 3)); Got s].
Proof. exists (st 4 2). vm_compute. intros H. discriminate H. Qed.
Print Assumptions C16_memory_get_optimizer_refuted.

Theorem C16_memory_pull_keeps_refuted : exists s : state nat nat,
  fst (run init0 [Put s 1; Pull None; Get None] [] (mk_repo None None)) <> [Done; Got s; Raised ValueError].
Proof. exists (st 4 2). vm_compute. intros H. discriminate H. Qed.
Print Assumptions C16_memory_pull_keeps_refuted.

Example C16_case :
  fst (run init0 [Get None; Put (st 1 10) 2; Put (st 2 20) 2; Put (st 3 30) 2; Get None; Pull None; Pull (Some 9); Get None]
         [] (mk_repo (Some "ckpt"%string) None))
  = [Raised ValueError; Done; Done; Done; Got (on_disk init0 (st 3 30) None);
     Got (on_disk init0 (st 3 30) None); Got (on_disk init0 (st 2 20) (Some 9)); Raised ValueError].
Proof. reflexivity. Qed.

(** a state with a smaller step removes the later checkpoints *)
Example C16_case_smaller_step :
  fst (run init0 [Put (st 5 10) 3; Put (st 8 20) 3; Put (st 6 30) 3; Get None; Pull None; Get None]
         [] (mk_repo (Some "ckpt"%string) None))
  = [Done; Done; Done; Got (on_disk init0 (st 6 30) None); Got (on_disk init0 (st 6 30) None);
     Got (on_disk init0 (st 5 10) None)].
Proof. reflexivity. Qed.

(** C17 *)
Theorem C17_disk_update : forall V O (init : O -> tree V -> V) d xs w s keep vs keep2 o, dir_files d w = [] ->
  fst (run init (xs ++ [Put s keep; Update vs None keep2; Get o]) w (mk_repo (Some d) None)) =
  fst (run init xs w (mk_repo (Some d) None)) ++
    [Done; Done; Got (on_disk init (replace (on_disk init s None) vs) o)].
Proof. intros V O init d xs w s keep vs keep2 o. exact (disk_update init d xs w s keep vs keep2 o). Qed.
Print Assumptions C17_disk_update.

Theorem C17_memory_update : forall V O (init : O -> tree V -> V) xs w s keep vs keep2,
  fst (run init (xs ++ [Put s keep; Update vs None keep2; Get None]) w (mk_repo None None)) =
  fst (run init xs w (mk_repo None None)) ++ [Done; Done; Got (replace s vs)].
Proof. intros V O init xs w s keep vs keep2. exact (mem_update init xs w s keep vs keep2). Qed.
Print Assumptions C17_memory_update.

(** crash during put: the latest checkpoint is the previous one or the new one *)
Theorem C17_put_crash_safe : forall V O (init : O -> tree V -> V) d xs w (s : state V O) keep m, dir_files d w = [] ->
  let w1 := fst (snd (run init xs w (mk_repo (Some d) None))) in
  let fl := dir_files d (apply_actions w1 (firstn m (save_actions d w1 s keep))) in
  latest fl = latest (dir_files d w1) \/ latest fl = Some (s_step s, to_file s).
Proof. intros V O init d xs w s keep m. exact (put_crash_reachable init d xs w s keep m). Qed.
Print Assumptions C17_put_crash_safe.

(** the actions of update_actions are what update does *)
Theorem C17_update_actions : forall V O (init : O -> tree V -> V) vs o keep d w r wr, r_dir r = Some d ->
  update init vs None o keep w r = (Ok tt, wr) -> fst wr = apply_actions w (update_actions init vs o keep w r).
Proof. intros V O init vs o keep d w r wr. exact (update_effect init vs o keep d w r wr). Qed.
Print Assumptions C17_update_actions.

(** crash during update: possible outcomes *)
Theorem C17_update_crash : forall V O (init : O -> tree V -> V) d w r st s vs o keep m,
  r_dir r = Some d -> repr (s :: st) (dir_files d w) ->
  let fl := dir_files d (apply_actions w (firstn m (update_actions init vs o keep w r))) in
  let s' := replace (on_disk init s o) vs in
  (m = 0 /\ latest fl = Some (entry s)) \/
  latest fl = match st with [] => None | t :: _ => Some (entry t) end \/ latest fl = Some (entry s').
Proof. intros V O init d w r st s vs o keep m. exact (update_crash init d w r st s vs o keep m). Qed.
Print Assumptions C17_update_crash.

(** the state is lost by a crash between the removal and the write *)
Theorem C17_update_crash_refuted : exists (s : state nat nat) vs m,
  let r := mk_repo (Some "ckpt"%string) None in
  let w1 := fst (snd (run init0 [Put s 1] [] r)) in
  let w2 := apply_actions w1 (firstn m (update_actions init0 vs None 1 w1 r)) in
  fst (run_op init0 (Get None) w1 r) = Got (on_disk init0 s None) /\
  fst (run_op init0 (Get None) w2 r) = Raised ValueError.
Proof. exists (st 4 2), [VMutable (Some 3)], 1. split; reflexivity. Qed.
Print Assumptions C17_update_crash_refuted.

Example C17_case :
  fst (run init0 [Put (st 1 10) 2; Update [VCalibParams (Some 3); VMutable (Some 8)] None 2; Get None] []
         (mk_repo (Some "ckpt"%string) None))
  = [Done; Done; Got (mk_state 1 (Dict [("w"%string, Leaf 10)]) 7 (Some 8) (Some 3) None None None)].
Proof. reflexivity. Qed.

(** C18 *)
Theorem C18_members_independent : forall V O (init : O -> tree V -> V) size base w xs j, j < size ->
  only j (fst (run_multi init xs w (init_multi size base)))
  = fst (run init (only j xs) w (mk_repo (option_map (fun b => member_dir b j) base) None)).
Proof. intros V O init size base w xs j. exact (members_independent init size base w xs j). Qed.
Print Assumptions C18_members_independent.

Theorem C18_get_all : forall V O (init : O -> tree V -> V) size base w xs ss,
  let wr := snd (run_multi init xs w (init_multi size base)) in
  get_all init (fst wr) (snd wr) = Ok ss ->
  length ss = size /\
  forall j s, nth_error ss j = Some s ->
    run_member init j (Get None) (fst wr) (snd wr) = (Got s, wr).
Proof. intros V O init size base w xs ss. exact (get_all_spec init size base w xs ss). Qed.
Print Assumptions C18_get_all.

Theorem C18_update_all : forall V O (init : O -> tree V -> V) size base w xs ys vs keep j, j < size ->
  let wr := snd (run_multi init xs w (init_multi size base)) in
  let u := update_all init vs keep (fst wr) (snd wr) in
  only j (fst (run_multi init xs w (init_multi size base))) ++ only j (fst u) ++
    only j (fst (run_multi init ys (fst (snd u)) (snd (snd u))))
  = fst (run init (only j xs ++ Update vs None keep :: only j ys) w (mk_repo (option_map (fun b => member_dir b j) base) None)).
Proof. exact update_all_spec. Qed.
Print Assumptions C18_update_all.

(** put without an index always fails *)
Theorem C18_put_all_refuted : exists (s : state nat nat) rs, rs = init_multi 2 None /\
  fst (put_all s [] rs) <> Ok tt.
Proof. exists (st 4 2), (init_multi 2 None). split; [reflexivity|discriminate]. Qed.
Print Assumptions C18_put_all_refuted.

Example C18_case :
  let xs := [(0, Put (st 1 10) 1); (1, Put (st 2 20) 1); (0, Update [VMutable (Some 1)] None 1); (5, Get None);
             (1, Get None); (0, Get None)] in
  let y := run_multi init0 xs [] (init_multi 2 (Some "ckpt"%string)) in
  only 0 (fst y) = [Done; Done; Got (replace (on_disk init0 (st 1 10) None) [VMutable (Some 1)])] /\
  only 1 (fst y) = [Done; Got (on_disk init0 (st 2 20) None)] /\
  get_all init0 (fst (snd y)) (snd (snd y))
    = Ok [replace (on_disk init0 (st 1 10) None) [VMutable (Some 1)]; on_disk init0 (st 2 20) None].
Proof. repeat split. Qed.

(** C19 *)
Theorem C19_put_get : forall V O (init : O -> tree V -> V) (all_params : tree V) paths i (s : state V O) keep w rs r,
  all_independent paths -> Forall (fun p => p <> []) paths ->
  Forall (fun p => at_path (s_params s) p <> None) paths ->
  Forall (fun p => at_path all_params p <> None) paths ->
  nth_error rs i = Some r -> (forall d, r_dir r = Some d -> sorted (dir_files d w)) ->
  exists back,
    let wr := snd (sg_put init all_params (Some paths) i s keep w rs) in
    fst (sg_put init all_params (Some paths) i s keep w rs) = Done /\
    (match r_dir r with
     | None => sg_get init all_params (Some paths) i None (fst wr) (snd wr) = Ok (replace s [VParams back])
     | Some _ => sg_get init all_params (Some paths) i None (fst wr) (snd wr) = Ok (on_disk init (replace s [VParams back]) None)
     end) /\
    (forall p q, In p paths -> at_path back (p ++ q) = at_path (s_params s) (p ++ q)) /\
    (forall q, Forall (fun p => independent p q) paths -> at_path back q = at_path all_params q) /\
    (forall q p r, In p paths -> p = q ++ r -> r <> [] -> exists kvs, at_path back q = Some (Dict kvs)).
Proof. intros V O init all_params paths i s keep w rs r. exact (sg_put_get init all_params paths i s keep w rs r). Qed.
Print Assumptions C19_put_get.
Example C19_case_independent : all_independent [["params"; "w"]; ["params"; "b"]]%string /\ Forall (fun p => independent p ["params"; "c"]%string) [["params"; "w"]; ["params"; "b"]]%string.
Proof. split; repeat constructor; intros [r E]; discriminate E. Qed.

(** a sample that agrees with the shared parameters outside the given paths is read
    back with the same value at every leaf *)
Theorem C19_same_leaves : forall V (all_params : tree V) paths (P back : tree V),
  Forall (fun p => at_path P p <> None) paths ->
  (forall p q, In p paths -> at_path back (p ++ q) = at_path P (p ++ q)) ->
  (forall q, Forall (fun p => independent p q) paths -> at_path back q = at_path all_params q) ->
  (forall q p r, In p paths -> p = q ++ r -> r <> [] -> exists kvs, at_path back q = Some (Dict kvs)) ->
  (forall q, Forall (fun p => independent p q) paths -> at_path P q = at_path all_params q) ->
  forall q v, at_path back q = Some (Leaf v) <-> at_path P q = Some (Leaf v).
Proof. intros V all_params paths P back. exact (sg_same_leaves all_params paths P back). Qed.
Print Assumptions C19_same_leaves.

(** reading all samples fails as soon as which_params is given *)
Theorem C19_get_all_refuted : exists (s : state nat nat) paths,
  let all_params := s_params s in
  let wr := snd (sg_put init0 all_params (Some paths) 0 s 1 [] (init_multi 1 None)) in
  sg_get init0 all_params (Some paths) 0 None (fst wr) (snd wr) = Ok s /\
  sg_get_all init0 (Some paths) (fst wr) (snd wr) = Err NameError.
Proof. exists (st 4 2), [["w"%string]]. split; reflexivity. Qed.
Print Assumptions C19_get_all_refuted.

Example C19_case :
  let all_params := Dict [("a"%string, Leaf 1); ("b"%string, Dict [("x"%string, Leaf 2); ("y"%string, Leaf 3)])] in
  let sample := Dict [("a"%string, Leaf 9); ("b"%string, Dict [("x"%string, Leaf 8); ("y"%string, Leaf 7)])] in
  let s : state nat nat := mk_state 3 sample 0 None None None None None in
  let wr := snd (sg_put init0 all_params (Some [["b"; "x"]%string]) 1 s 1 [] (init_multi 2 None)) in
  sg_get init0 all_params (Some [["b"; "x"]%string]) 1 None (fst wr) (snd wr)
  = Ok (replace s [VParams (Dict [("a"%string, Leaf 1); ("b"%string, Dict [("x"%string, Leaf 8); ("y"%string, Leaf 3)])])]).
Proof. reflexivity. Qed.
