(** Specification vocabulary for weights. *)
From Coq Require Import Reals.
From Verif Require Import Base Floats Weights.

(** every row has one weight per channel and polarization *)
Definition regular (nPol nChan : nat) (block : list row) : Prop :=
  (1 <= nPol)%nat /\ Forall (fun r => length r = (nChan * nPol)%nat) block.

Definition nonneg (x : f32) : Prop := is_finite x = true /\ (0 <= B2R x)%R.

(** the weights of channel [ch] of a row, one per polarization *)
Definition pols (nPol : nat) (r : row) (ch : nat) : list f32 := firstn nPol (skipn (ch * nPol) r).

(** [w] is a smallest element of [l] *)
Definition smallest (w : f32) (l : list f32) : Prop :=
  In w l /\ forall x, In x l -> (B2R w <= B2R x)%R.
