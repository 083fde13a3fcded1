(** Specification vocabulary for dictionaries, independent of the search code. *)
From Verif Require Import Base Floats.

(** [r] is the first position whose value is not less than [v] *)
Definition is_lower_bound (l : list f32) (v : f32) (r : nat) : Prop :=
  (r <= length l)%nat /\
  (forall i x, (i < r)%nat -> nth_error l i = Some x -> Bltb x v = true) /\
  (forall x, nth_error l r = Some x -> Bltb x v = false).

(** non-decreasing, no NaN *)
Definition sorted (l : list f32) : Prop :=
  forall i j x y, (i <= j)%nat -> nth_error l i = Some x -> nth_error l j = Some y ->
  Bleb x y = true.

(** strictly increasing, no NaN *)
Definition strictly_sorted (l : list f32) : Prop :=
  forall i j x y, (i < j)%nat -> nth_error l i = Some x -> nth_error l j = Some y ->
  Bltb x y = true.

Definition no_nan (l : list f32) : Prop := Forall (fun x => is_nan x = false) l.
Definition all_finite (l : list f32) : Prop := Forall (fun x => is_finite x = true) l.
