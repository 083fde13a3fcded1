(** A whole storage manager: what the other columns can do to a column, and the file. *)
From Verif Require Import Base BaseLemmas Floats TimeBlockBuffer TbbSpec BytePacker File FileProofs StMan StManSpec StManProofs.
From Verif Require Import BitStream StochasticEncoder TimeBlockEncoders TbeSpec Weights WeightSpec Block BlockSpec Column ColumnSpec ColumnProofs ColumnInv ColumnReach StoredColumn System SystemSpec SystemLow SystemCols SystemInv SystemOrder SystemEnd SystemRead SystemGood.
From Coq Require Import ZifyNat ZifyN.
Local Open Scope N_scope.
Local Arguments System.colenv : simpl never.

Definition allA : nat := N.to_nat (2 ^ 31).
Lemma allA_below T : ants32 T -> forall r, (fst (t_ants T r) < allA)%nat /\ (snd (t_ants T r) < allA)%nat.
Proof. intros H r. destruct (H r). unfold allA. lia. Qed.
Lemma allA_32 : N.of_nat allA < 2 ^ 32.
Proof. unfold allA. rewrite N2Nat.id. reflexivity. Qed.

Section SystemFinal.
Context (cfg : nat -> coldef) (T : table) (nt : nat).
Hypotheses (NT : nt <> 0%nat) (HA : ants32 T).
Notation sys := (sys cfg T nt).
Notation cst := (cst cfg T nt). Notation man := (man cfg T nt). Notation active := (active cfg T nt).
Notation ncol := (ncol cfg T nt). Notation running := (running cfg T nt). Notation colenv := (colenv cfg T nt).

Lemma final_si S0 S : sstart cfg T nt S0 -> sreach cfg T nt S0 S -> running S -> fits32 (man S) -> SI cfg T nt allA S0 S.
Proof. apply (si_reach cfg T nt allA NT (allA_below T HA) allA_32). Qed.

Theorem columns_alone S0 S : sstart cfg T nt S0 -> sreach cfg T nt S0 S -> running S -> fits32 (man S) ->
  forall i, (i < ncol S)%nat -> starts (cst S0 i) /\ reach (cst S0 i) (cst S i).
Proof. intros St H R Ft i Hi. split; [now apply (start_starts cfg T nt)|]. apply (s_reach _ _ _ _ _ _ (final_si S0 S St H R Ft) i Hi). Qed.

Theorem columns_keep S0 S : sstart cfg T nt S0 -> sreach cfg T nt S0 S -> running S -> fits32 (man S) ->
  forall i col b y, nth_error (columns (man S)) i = Some col -> file (cst S i) b = Some y ->
  b < nBlocksInFile (man S) /\ len y = co_blockSize col /\ readCompressedData (man S) b col (co_blockSize col) = Ok (Some y).
Proof. intros St H R Ft. exact (s_file _ _ _ _ _ _ (final_si S0 S St H R Ft)). Qed.

Theorem blocks_readable S0 S : sstart cfg T nt S0 -> sreach cfg T nt S0 S -> running S -> fits32 (man S) ->
  forall i col b, nth_error (columns (man S)) i = Some col -> b < nBlocksInFile (man S) ->
  exists r, readCompressedData (man S) b col (co_blockSize col) = Ok r.
Proof.
  intros St H R Ft i col b Hc Hb. pose proof (final_si S0 S St H R Ft) as I.
  assert (Z : rowsPerBlock (man S) <> 0) by (intros Z; rewrite (s_none _ _ _ _ _ _ I Z) in Hb; lia).
  destruct (read_ok (man S) (s_placed _ _ _ _ _ _ I) Ft Z b i col Hc Hb (s_begun _ _ _ _ _ _ I)) as (r & Er & _). eauto.
Qed.

Theorem no_second_init S0 S : sstart cfg T nt S0 -> sreach cfg T nt S0 S -> running S -> fits32 (man S) ->
  forall i n m c, (i < ncol S)%nat -> i = active S -> code (cst S i) = ISetRpb n m :: c ->
  exists m', initializeRowsPerBlock (man S) n (N.of_nat m) true = Ok m'.
Proof.
  intros St H R Ft i n m c Hi Ha Hc. pose proof (final_si S0 S St H R Ft) as I. apply init_no_throw.
  destruct (s_sync _ _ _ _ _ _ I i Hi) as (S1 & _). destruct (S1 Ha) as (S2 & _). rewrite <- S2.
  pose proof (si_inv cfg T nt allA NT S0 S i St I R Hi) as Iv. pose proof (i_phase _ _ Iv) as P. rewrite Hc in P.
  inversion P; try (match goal with H : maybe_store ?st ++ _ = _ |- _ => destruct st; discriminate end). trivial.
Qed.
End SystemFinal.
