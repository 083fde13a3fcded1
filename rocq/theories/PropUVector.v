(** Property theorems C15: UVector.  Statements only. *)
From Verif Require Import Base UVector UVectorSpec UVectorProofs.

(** every program over a vector does what it does on lists, without undefined
    behaviour *)
Theorem C15_programs_refine_lists : forall A (os : list (op A)) l,
  spec_run [] os = Some l -> exists v, run uv_empty os = Ok v /\ holds v (map Some l).
Proof. intros A os l. exact (run_ok os uv_empty [] l empty_holds). Qed.
Print Assumptions C15_programs_refine_lists.

Theorem C15_programs_refine_lists_from : forall A (os : list (op A)) v l l', holds v (map Some l) ->
  spec_run l os = Some l' -> exists v', run v os = Ok v' /\ holds v' (map Some l').
Proof. exact @run_ok. Qed.
Print Assumptions C15_programs_refine_lists_from.

(** constructors *)
Theorem C15_construct : forall A (x : A) (xs : list A) n,
  holds (A:=A) uv_empty [] /\ holds (uv_make n) (repeat (@None A) n) /\ capacity (uv_make (A:=A) n) = n /\
  (exists v, uv_make_fill n x = Ok v /\ holds v (repeat (Some x) n) /\ capacity v = n) /\
  (exists v, uv_make_range xs = Ok v /\ holds v (map Some xs) /\ capacity v = length xs).
Proof. exact @construct_ok. Qed.
Print Assumptions C15_construct.

(** the capacity after every operation: nothing is moved while the elements fit *)
Theorem C15_capacity : forall A (o : op A) (v v' : uvector A) l l', holds v (map Some l) -> spec_step l o = Some l' ->
  step v o = Ok v' -> capacity v' = spec_capacity (capacity v) (length l) o.
Proof. exact @step_capacity. Qed.
Print Assumptions C15_capacity.

(** elements appended one by one: the capacity is the next power of two, so that there are
    logarithmically many reallocations *)
Theorem C15_appending : forall A (xs : list A), exists v, run uv_empty (map Push xs) = Ok v /\ holds v (map Some xs) /\
  capacity v = match xs with [] => 0%nat | _ => (2 ^ Nat.log2_up (length xs))%nat end.
Proof. exact @pushes_capacity. Qed.
Print Assumptions C15_appending.

Example C15_capacity_example :
  let v := UV [Some 1; Some 2; Some 3; None] 3 in
  holds v (map Some [1; 2; 3]) /\
  match step v (PushRange [4; 5]), step v (PushRange [4]), run uv_empty (map Push [1; 2; 3; 4; 5]) with
  | Ok a, Ok b, Ok c => capacity a = 6%nat /\ cells a = Ok [Some 1; Some 2; Some 3; Some 4; Some 5] /\ capacity b = 4%nat /\ capacity c = 8%nat
  | _, _, _ => False
  end.
Proof. split; [split; trivial; now exists [None]|]. vm_compute. repeat split. Qed.

(** as in std::vector, the preconditions are not checked *)
Theorem C15_preconditions : forall A (v : uvector A) l, holds v l ->
  (l = [] -> uv_pop_back v = UB) /\
  (forall pos xs, (length l < pos)%nat -> uv_insert v pos xs = UB) /\
  (forall a b, (b < a)%nat \/ (length l < b)%nat -> uv_erase v a b = UB).
Proof. exact @outside_ok. Qed.
Print Assumptions C15_preconditions.

Theorem C15_at : forall A (v : uvector A) l i, holds v l ->
  uv_at v i = match nth_error l i with Some x => Ok x | None => Throw end.
Proof. exact @at_ok. Qed.
Print Assumptions C15_at.

Theorem C15_copy_construct : forall A (v : uvector A) l, holds v l ->
  exists v', uv_copy v = Ok v' /\ holds v' l /\ capacity v' = length l.
Proof. exact @copy_ok. Qed.
Print Assumptions C15_copy_construct.

Theorem C15_move_and_swap : forall A (v w : uvector A) l m, holds v l -> holds w m ->
  holds (fst (uv_move v)) l /\ holds (snd (uv_move v)) [] /\
  holds (fst (uv_assign_move w v)) l /\ holds (snd (uv_assign_move w v)) [] /\
  holds (fst (uv_swap v w)) m /\ holds (snd (uv_swap v w)) l.
Proof. intros A v w l m Hv Hw. repeat (split; try assumption; try exact empty_holds). Qed.
Print Assumptions C15_move_and_swap.

(** uninitialised resize and insert: old elements are kept, sizes are right *)
Theorem C15_resize_uninitialised : forall A (v : uvector A) l n, holds v l ->
  exists v' added, uv_resize v n = Ok v' /\ holds v' (firstn n l ++ added) /\ length added = (n - length l)%nat.
Proof. exact @resize_ok. Qed.
Print Assumptions C15_resize_uninitialised.

Theorem C15_insert_uninitialised : forall A (v : uvector A) a b n, holds v (a ++ b) ->
  exists v' mid, uv_insert_uninit v (length a) n = Ok v' /\ holds v' (a ++ mid ++ b) /\ length mid = n.
Proof. exact @insert_uninit_ok. Qed.
Print Assumptions C15_insert_uninitialised.

(** copy assignment works when the destination must grow or has the same size *)
Theorem C15_copy_assign : forall A (dst src : uvector A) l l', holds dst l' -> holds src l ->
  (capacity dst < length l)%nat \/ length l' = length l ->
  exists v, uv_assign dst src = Ok v /\ holds v l.
Proof. exact @assign_ok. Qed.
Print Assumptions C15_copy_assign.

(** and keeps the old size of the destination in all other cases *)
Theorem C15_copy_assign_keeps_size : forall A (dst src : uvector A) l l', holds dst l' -> holds src l ->
  (length l <= capacity dst)%nat ->
  exists v, uv_assign dst src = Ok v /\ size v = length l'.
Proof. exact @assign_keeps_size. Qed.
Print Assumptions C15_copy_assign_keeps_size.

Theorem C15_copy_assign_refuted : exists (dst src : uvector nat) l l' v,
  holds dst l' /\ holds src l /\ uv_assign dst src = Ok v /\ ~ holds v l.
Proof.
  exists (UV [Some 1; Some 2; Some 3] 3), (UV [Some 7] 1), [Some 7], [Some 1; Some 2; Some 3], (UV [Some 7; Some 2; Some 3] 3).
  split; [split; trivial; now exists []|]. split; [split; trivial; now exists []|]. split; trivial.
  intros (C & _). discriminate.
Qed.
Print Assumptions C15_copy_assign_refuted.

(** push_back of a reference to an own element: fine if there is room, a use
    after free if not (std::vector supports both) *)
Theorem C15_push_back_own : forall A (v : uvector A) l i x, holds v l ->
  (length l < capacity v)%nat -> nth_error l i = Some x ->
  exists v', uv_push_back v (Own i) = Ok v' /\ holds v' (l ++ [x]).
Proof. exact @push_back_own_ok. Qed.
Print Assumptions C15_push_back_own.

Theorem C15_push_back_own_refuted : forall A (v : uvector A) l i, holds v l ->
  length l = capacity v -> uv_push_back v (Own i) = UB.
Proof. exact @push_back_own_full. Qed.
Print Assumptions C15_push_back_own_refuted.

Example C15_example :
  spec_run [] [Push 1; Push 2; Insert 1 [7; 8; 9]; Erase 0 1; Reserve 20; Resize 6 5; Pop; Set_ 0 3] = Some [3; 8; 9; 2; 5] /\
  match run uv_empty [Push 1; Push 2; Insert 1 [7; 8; 9]; Erase 0 1; Reserve 20; Resize 6 5; Pop; Set_ 0 3] with
  | Ok v => capacity v = 20%nat /\ cells v = Ok [Some 3; Some 8; Some 9; Some 2; Some 5]
  | _ => False
  end.
Proof. split; [reflexivity|]. vm_compute. split; reflexivity. Qed.

Example C15_own_example : let v := UV [Some 4; Some 5] 2 in
  holds v [Some 4; Some 5] /\ length [Some 4; Some 5] = capacity v /\ uv_push_back v (Own 0) = UB.
Proof. split; [split; trivial; now exists []|]. split; reflexivity. Qed.
