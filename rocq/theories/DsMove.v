(** Which columns [MoveColumnData] copies.  Proof file. *)
From Coq Require Import String.
From Verif Require Import Base Dscompress.

Section S.
Context {V : Type} (vshape : V -> list nat) (store : string -> V -> V) (removed : list (option V) -> list (option V)).

(** every row has contents, of the given shape *)
Definition all_of (shape : list nat) (rows : list (option V)) : Prop := forall x, In x rows -> exists v, x = Some v /\ vshape v = shape.

Lemma copy_exact mgr shape rows : (all_of shape rows /\ copyValues vshape store mgr shape rows = Ok (map (option_map (store mgr)) rows)) \/
  (~ all_of shape rows /\ copyValues vshape store mgr shape rows = Throw).
Proof.
  induction rows as [|[v|] rows IH]; cbn [copyValues map option_map].
  - left. split; [intros x []|reflexivity].
  - destruct (list_eq_dec Nat.eq_dec (vshape v) shape) as [E|E].
    + destruct IH as [[A ->]|[A ->]]; [left|right]; cbn [bind]; split; trivial.
      * intros x [<-|I]; [eauto|auto].
      * intros B. apply A. intros x I. apply B. now right.
    + right. split; trivial. intros B. destruct (B (Some v)) as (w & [= <-] & W); [now left|]. contradiction.
  - right. split; trivial. intros B. destruct (B None) as (w & W & _); [now left|]. discriminate W.
Qed.

Lemma temp_neq n : n <> temp_name n.
Proof.
  unfold temp_name. intros H. apply (f_equal String.length) in H. cbn in H. lia.
Qed.

Lemma move_exact t n old new : t (temp_name n) = Some old -> t n = Some new ->
  (all_of (c_shape new) (c_rows old) -> exists t', MoveColumnData vshape store removed t n = Ok t' /\ t' (temp_name n) = None /\
     (c_manager old <> "DyscoStMan"%string -> t' n = Some (Col (c_manager new) (c_shape new) (map (option_map (store (c_manager new))) (c_rows old))) /\
        forall m, m <> n -> m <> temp_name n -> t' m = t m)) /\
  (~ all_of (c_shape new) (c_rows old) -> MoveColumnData vshape store removed t n = Throw).
Proof.
  intros Eo En. unfold MoveColumnData. rewrite Eo, En. destruct (copy_exact (c_manager new) (c_shape new) (c_rows old)) as [[A E]|[A E]]; rewrite E; cbn [bind].
  - split; [intros _|contradiction]. unfold removeColumn. unfold upd_table at 1. destruct (String.eqb_spec (temp_name n) n) as [X|_]; [now destruct (temp_neq n)|].
    rewrite Eo. eexists. split; [reflexivity|]. split; [unfold upd_table; now rewrite String.eqb_refl|].
    intros M. unfold is_dysco. destruct (String.eqb_spec (c_manager old) "DyscoStMan") as [|_]; [contradiction|]. unfold upd_table. split.
    + destruct (String.eqb_spec n (temp_name n)) as [X|_]; [now destruct (temp_neq n)|]. now rewrite String.eqb_refl.
    + intros m N1 N2. destruct (String.eqb_spec m (temp_name n)); [contradiction|]. destruct (String.eqb_spec m n); [contradiction|]. reflexivity.
  - split; [contradiction|reflexivity].
Qed.
End S.
