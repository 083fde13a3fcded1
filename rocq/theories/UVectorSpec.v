(** What a vector should be: a list. *)
From Verif Require Import Base UVector.

(** [v] holds the elements [l] ([None] = uninitialised) inside its allocation *)
Definition holds {A} (v : uvector A) (l : list (option A)) : Prop :=
  count v = length l /\ exists rest, store v = l ++ rest.

(** A program over one vector. *)
Inductive op (A : Type) :=
| Push (x : A) | Pop | Resize (n : nat) (x : A) | Reserve (n : nat) | Shrink
| Insert (pos : nat) (xs : list A) | Erase (first last : nat) | Clear
| Assign (xs : list A) | Set_ (i : nat) (x : A) | PushRange (xs : list A).
Arguments Push {A}. Arguments Pop {A}. Arguments Resize {A}. Arguments Reserve {A}.
Arguments Shrink {A}. Arguments Insert {A}. Arguments Erase {A}. Arguments Clear {A}.
Arguments Assign {A}. Arguments Set_ {A}. Arguments PushRange {A}.

Definition step {A} (v : uvector A) (o : op A) : res (uvector A) :=
  match o with
  | Push x => uv_push_back v (Outside x)
  | Pop => uv_pop_back v
  | Resize n x => uv_resize_fill v n x
  | Reserve n => uv_reserve v n
  | Shrink => uv_shrink v
  | Insert pos xs => uv_insert v pos xs
  | Erase a b => uv_erase v a b
  | Clear => Ok (uv_clear v)
  | Assign xs => uv_assign_range v xs
  | Set_ i x => uv_set v i x
  | PushRange xs => uv_push_range v xs
  end.
Definition run {A} (v : uvector A) (os : list (op A)) : res (uvector A) := foldM step os v.

(** the same program over lists; [None]: the caller violated a precondition *)
Definition spec_step {A} (l : list A) (o : op A) : option (list A) :=
  match o with
  | Push x => Some (l ++ [x])
  | Pop => match l with [] => None | _ => Some (removelast l) end
  | Resize n x => Some (firstn n l ++ repeat x (n - length l))
  | Reserve _ | Shrink => Some l
  | Insert pos xs =>
      if (pos <=? length l)%nat then Some (firstn pos l ++ xs ++ skipn pos l) else None
  | Erase a b =>
      if ((a <=? b) && (b <=? length l))%nat then Some (firstn a l ++ skipn b l) else None
  | Clear => Some []
  | Assign xs => Some xs
  | Set_ i x => if (i <? length l)%nat then Some (upd l i x) else None
  | PushRange xs => Some (l ++ xs)
  end.
Fixpoint spec_run {A} (l : list A) (os : list (op A)) : option (list A) :=
  match os with
  | [] => Some l
  | o :: os' => match spec_step l o with Some l' => spec_run l' os' | None => None end
  end.

(** The capacity after an operation on a vector of [n] elements with capacity [c].  As long as
    the elements fit nothing is moved in memory; adding elements at least doubles the capacity. *)
Definition grown (c n k : nat) : nat := if (n + k <=? c)%nat then c else (n + Nat.max n k)%nat.
Definition spec_capacity {A} (c n : nat) (o : op A) : nat :=
  match o with
  | Push _ => grown c n 1
  | PushRange xs | Insert _ xs => grown c n (length xs)
  | Resize m _ | Reserve m => Nat.max c m
  | Assign xs => Nat.max c (length xs)
  | Shrink => n
  | Pop | Erase _ _ | Clear | Set_ _ _ => c
  end.
