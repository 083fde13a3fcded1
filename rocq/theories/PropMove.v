(** Property theorems C55, continued: which columns are copied.  Statements only. *)
From Coq Require Import String.
From Verif Require Import Base Dscompress DsMove.

(** A column whose rows all have contents of the shape of the new column is copied row by row
    and then removed; any other column is refused with an exception, also when its first row is
    right. *)
Theorem C55_moved_exactly : forall V (vshape : V -> list nat) store removed (t : table V) n old new,
  t (temp_name n) = Some old -> t n = Some new ->
  (all_of vshape (c_shape new) (c_rows old) -> exists t', MoveColumnData vshape store removed t n = Ok t' /\ t' (temp_name n) = None /\
     (c_manager old <> "DyscoStMan"%string -> t' n = Some (Col (c_manager new) (c_shape new) (map (option_map (store (c_manager new))) (c_rows old))) /\
        forall m, m <> n -> m <> temp_name n -> t' m = t m)) /\
  (~ all_of vshape (c_shape new) (c_rows old) -> MoveColumnData vshape store removed t n = Throw).
Proof. exact @move_exact. Qed.
Print Assumptions C55_moved_exactly.

(** values are pairs of a number and a shape; a column with a row of another shape, one with a
    row without contents, and a regular one *)
Definition move_table (rows : list (option (nat * list nat))) : table (nat * list nat) := fun n =>
  if String.eqb n "TEMP_DATA" then Some (Col "StandardStMan" [] rows) else
  if String.eqb n "DATA" then Some (Col "DyscoStMan" [1%nat; 2%nat] (repeat None (List.length rows))) else None.
Example C55_moved_example : let go rows := match MoveColumnData snd (fun _ v => (S (fst v), snd v)) (fun r => r) (move_table rows) "DATA" with Ok t => Ok (t "DATA", t "TEMP_DATA") | Throw => Throw | UB => UB end%string in
  all_of snd [1; 2]%nat [Some (5, [1; 2]); Some (6, [1; 2])]%nat /\
  go [Some (5, [1; 2]); Some (6, [1; 2])]%nat = Ok (Some (Col "DyscoStMan" [1; 2] [Some (6, [1; 2]); Some (7, [1; 2])])%nat, None)%string /\
  go [Some (5, [1; 2]); Some (6, [2; 1])]%nat = Throw /\ go [Some (5, [1; 2]); None]%nat = Throw.
Proof. split; [|now vm_compute]. intros x [<-|[<-|[]]]; eauto. Qed.
