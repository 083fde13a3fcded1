(** Concrete tables for the theorems about dscompress. *)
From Verif Require Import Base Floats FloatLemmas Dscompress DsSpec DsProofs DsMore DsColumn Column ColumnSpec ColumnTraces.
From Coq Require Import List.

Definition t0 : f64 := of64 0. Definition t1 : f64 := of64 1. Definition t2 : f64 := of64 2.
Definition row (a b : Z) (t : f64) := MsRow a b 0 0 t.

(** two time blocks of two baselines *)
Definition good_rows := [row 0 1 t0; row 0 2 t0; row 0 1 t1; row 0 2 t1].
(** the second block is longer *)
Definition long_rows := [row 0 1 t0; row 0 1 t1; row 0 2 t1].
(** the last block is shorter, a baseline differs *)
Definition short_rows := [row 0 1 t0; row 0 2 t0; row 0 1 t1].
Definition other_rows := [row 0 1 t0; row 0 2 t0; row 0 1 t1; row 1 2 t1].

Lemma good_ok : validate good_rows = Ok tt. Proof. now vm_compute. Qed.
Lemma long_ub : validate long_rows = UB. Proof. now vm_compute. Qed.
Lemma short_throws : validate short_rows = Throw. Proof. now vm_compute. Qed.
Lemma other_throws : validate other_rows = Throw. Proof. now vm_compute. Qed.

(** a toy column over [good_rows] *)
Definition good_env : env := Env N (list (list N)) 1 (fun _ _ b y => y = map (fun r => TimeBlockBuffer.visibilities r) b) (fun _ _ _ y => y)
  (fun r => match nth_error good_rows (N.to_nat r) with Some x => (Z.to_nat (ant1 x), Z.to_nat (ant2 x)) | None => (0, 0)%nat end)
  (fun r => if (r <? 2)%N then 0%Z else 1%Z) (fun _ => 0%Z) (fun _ => 0%Z) 2 true.

Lemma good_describes : describes good_env good_rows.
Proof.
  split; [|reflexivity]. intros i j x y Hi Hj.
  assert (Li : (i < 4)%nat) by (change 4%nat with (length good_rows); apply nth_error_Some; congruence).
  assert (Lj : (j < 4)%nat) by (change 4%nat with (length good_rows); apply nth_error_Some; congruence).
  unfold same_keys, same_key. cbn [Column.time Column.field Column.ddid good_env].
  destruct i as [|[|[|[|i]]]]; try lia; destruct j as [|[|[|[|j]]]]; try lia; cbn in Hi, Hj; injection Hi as <-; injection Hj as <-;
    (split; [intros (A & _); vm_compute in A; try discriminate; now vm_compute | intros (A & _); vm_compute in A; try discriminate; now vm_compute]).
Qed.

(** also for a table without rows, which is not regular *)
Lemma validate_regular_all rows : (forall r, hd_error rows = Some r -> is_nan (Dscompress.time r) = false) -> (validate rows = Ok tt <-> regular rows).
Proof.
  destruct rows as [|r0 rows]; intros H.
  - split; [discriminate|]. intros (bs & E & NB & F & _). destruct bs as [|b bs]; [now elim NB|].
    inversion F as [|? ? [Q _] _]; subst. destruct b; [now elim Q|discriminate E].
  - exact (validate_regular r0 rows (H r0 eq_refl)).
Qed.
