(** Model of [TimeBlockBuffer] (/repo/timeblockbuffer.h). *)
From Verif Require Import Base.

(** timeblockbuffer.h:21-24 *)
Record drow (A : Type) := DRow { antenna1 : nat; antenna2 : nat; visibilities : list A }.
Arguments DRow {A}. Arguments antenna1 {A}. Arguments antenna2 {A}. Arguments visibilities {A}.

(** the member [_data] *)
Definition tbb (A : Type) := list (drow A).

(** rows made by std::vector::resize are value-initialized *)
Definition no_row {A} : drow A := DRow 0 0 [].

(** std::vector::resize *)
Definition resize {A} (n : nat) (b : tbb A) : tbb A := firstn n b ++ repeat no_row (n - length b).

(** timeblockbuffer.h:30-39; [nSamp] is [_nPol * _nChannels]; [data] points to
    the samples of one row *)
Definition SetData {A} (nSamp : nat) (b : tbb A) (blockRow a1 a2 : nat) (data : list A) : res (tbb A) :=
  if length data <? nSamp then UB else
  let b' := if length b <=? blockRow then resize (blockRow + 1) b else b in
  Ok (firstn blockRow b' ++ DRow a1 a2 (firstn nSamp data) :: skipn (S blockRow) b').

(** timeblockbuffer.h:41-45: the samples copied to the destination *)
Definition GetData {A} (b : tbb A) (blockRow : nat) : res (list A) :=
  match nth_error b blockRow with Some r => Ok (visibilities r) | None => UB end.

(** timeblockbuffer.h:47, 17 *)
Definition NRows {A} (b : tbb A) : nat := length b.
Definition Empty {A} (b : tbb A) : bool := match b with [] => true | _ => false end.

(** timeblockbuffer.h:49-56 *)
Definition MaxAntennaIndex {A} (b : tbb A) : nat :=
  fold_left (fun m r => Nat.max m (Nat.max (antenna1 r) (antenna2 r))) b 0.

(** timeblockbuffer.h:61-73, with the conversion [f] of one sample *)
Definition ConvertVector {A B} (f : A -> B) (b : tbb A) : tbb B :=
  map (fun r => DRow (antenna1 r) (antenna2 r) (map f (visibilities r))) b.
