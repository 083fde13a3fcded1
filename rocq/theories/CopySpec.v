(** Specification vocabulary for copying a table. *)
From Coq Require Import Reals String Ascii.
From Flocq Require Import Core.
From Verif Require Import Base Floats StMan Production Block System.
Local Open Scope N_scope.

(** the numbers of a distribution and a normalization, and data columns prepared with them *)
Definition known_settings (m : stman) : Prop :=
  distribution m < 4 /\ normalization m < 3 /\ Forall (fun c => co_kind c = KWeight \/ co_kind c = data_kind m) (columns m).

(** what a column is, without where its data is stored *)
Definition same_column (c c' : column) : Prop := co_kind c' = co_kind c /\ co_nPol c' = co_nPol c /\ co_nChan c' = co_nChan c /\ co_bits c' = co_bits c.

(** [loc] is the path [p] followed by any number of slashes *)
Inductive slashes (p : string) : string -> Prop :=
| sl_none : slashes p p
| sl_more s : slashes p s -> slashes p (s ++ "/").

(** a column of weights that are put as zero or a normal number *)
Definition normal_weights (c : coldef) : (N -> list (sample (codec_of c))) -> Prop :=
  match c with
  | CWeight _ _ _ => fun D => forall r, Forall (fun w => B2R w = 0%R \/ (bpow radix2 (-126) <= B2R w)%R) (D r)
  | _ => fun _ => False
  end.
