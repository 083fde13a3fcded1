(** Reading an opened table, all columns. *)
From Verif Require Import Base BaseLemmas Floats TimeBlockBuffer TbbSpec BytePacker File FileProofs StMan StManSpec StManProofs.
From Verif Require Import StochasticEncoder TimeBlockEncoders Block Column ColumnSpec ColumnProofs ColumnInv ColumnReach ColumnTerm ColumnData ColumnRead StoredColumn System SystemSpec SystemLow SystemCols SystemInv SystemOrder.
From Coq Require Import ZifyNat ZifyN.
Local Open Scope N_scope.

Local Arguments System.colenv : simpl never.

Section SystemRead.
Context (cfg : nat -> coldef) (T : table) (nt A : nat).
Hypotheses (NT : nt <> 0%nat) (HA : forall r, (fst (t_ants T r) < A)%nat /\ (snd (t_ants T r) < A)%nat) (A32 : N.of_nat A < 2 ^ 32).
Notation sys := (sys cfg T nt).
Notation cst := (cst cfg T nt). Notation man := (man cfg T nt). Notation active := (active cfg T nt).
Notation ncol := (ncol cfg T nt). Notation running := (running cfg T nt). Notation colenv := (colenv cfg T nt).

Context (m : stman) (ok : N -> Prop).
Notation S0 := (sopen cfg T nt m).
Notation n := (rowsPerBlock m). Notation na := (N.to_nat (antennaCount m)).
Hypotheses (St : sstart cfg T nt S0) (Zn : n <> 0) (Ft : fits32 m).
(** the rows that are read can be, as far as their block is in the file *)
Hypothesis Good : forall i col r, nth_error (columns m) i = Some col -> ok r -> r / n < nBlocksInFile m ->
  exists y, disk m col (r / n) = Some y /\ nth_error (dec (colenv i) n na (r / n) y) (N.to_nat (r mod n)) <> None.

Lemma reading_sreach S : sys_reading ok S0 S -> sreach cfg T nt S0 S.
Proof.
  induction 1; [constructor|eapply sreach_step; eauto..].
  - eapply ss_call; eauto.
  - eapply ss_call; eauto.
  - now apply ss_move.
  - now apply ss_wake.
Qed.

Definition disk_of (i : nat) : N -> option (Column.bytes (colenv i)) := match nth_error (columns m) i with Some col => disk m col | None => fun _ => None end.

Lemma disk_within i b : disk_of i b <> None -> b < nBlocksInFile m.
Proof. unfold disk_of. destruct (nth_error _ _) as [col|]; [|easy]. unfold disk. destruct (N.ltb_spec b (nBlocksInFile m)); [trivial|easy]. Qed.

Definition RD (S : sys) : Prop := running S /\ man S = m /\ forall j, (j < ncol S)%nat -> reading ok (opened (colenv j) (disk_of j) (nBlocksInFile m) n na) (cst S j).

Lemma rd_column S i : RD S -> (i < ncol S)%nat -> exists col, nth_error (columns m) i = Some col.
Proof. intros (_ & Em & _) Hi. unfold System.ncol in Hi. rewrite Em in Hi. destruct (nth_error (columns m) i) eqn:E; [eauto|]. apply nth_error_None in E. lia. Qed.

Lemma rd_rinv S i : RD S -> (i < ncol S)%nat -> rinv (disk_of i) (nBlocksInFile m) n na ok (cst S i).
Proof. intros (R & _ & H) Hi. apply (rinv_reading (disk_of i) (nBlocksInFile m) n na Zn (disk_within i) ok); auto. Qed.

Lemma rd_si S : RD S -> sys_reading ok S0 S -> SI cfg T nt A S0 S.
Proof. intros (R & Em & _) H. apply (si_reach cfg T nt A NT HA A32); trivial; [now apply reading_sreach|now rewrite Em]. Qed.

Lemma rd_nblk S i : RD S -> sys_reading ok S0 S -> (i < ncol S)%nat -> nblk (cst S i) = nBlocksInFile m.
Proof. intros H Hs Hi. rewrite (s_nblk _ _ _ _ _ _ (rd_si S H Hs) i Hi). now rewrite (proj1 (proj2 H)). Qed.

(** a step of a column does not fail *)
Lemma rd_runs S i s' : RD S -> sys_reading ok S0 S -> (i < ncol S)%nat -> step (cst S i) s' -> code (cst S i) <> [] \/ code s' = [] -> status s' = Running.
Proof.
  intros H Hs Hi Ss Nc. pose proof (rd_nblk S i H Hs Hi) as Nb. destruct (rd_column S i H Hi) as (col & Hc). destruct H as (R & Em & H).
  destruct (status s') eqn:E; trivial; exfalso;
  destruct (read_ends (disk_of i) (nBlocksInFile m) n na Zn (disk_within i) ok (cst S i) s' (H i Hi) (R i Hi) Ss Nc ltac:(congruence)) as (row & Ok & [(_ & _ & Lt & F)|(_ & _ & y & Fy & F)]);
  (destruct (Good i col row Hc Ok) as (y' & Y1 & Y2); [try (now rewrite Nb in Lt); apply (disk_within i); congruence|unfold disk_of in *; rewrite Hc in *; congruence]).
Qed.

Lemma rd_load S i col b c old : RD S -> sys_reading ok S0 S -> nth_error (columns m) i = Some col -> code (cst S i) = ILoad b :: c -> status (sys_load cfg T nt m i col old (set_code (cst S i) c) b) = Running.
Proof.
  intros H Hs Hc Hb. assert (Hi : (i < ncol S)%nat) by (unfold System.ncol; destruct H as (_ & -> & _); apply nth_error_Some; congruence).
  pose proof (rd_rinv S i H Hi) as [R1 R2 R3 R4 R5 R6 R7 R7' R8 R9 R9' R10].
  destruct R10 as [[Q|[Q|[Q|Q]]]|(row & Sm & [Q|(Lt & [Q|[Q|[Q|(Cu & Q)]]])])]; rewrite Hb in Q; try discriminate. injection Q as -> ->.
  rewrite (rd_nblk S i H Hs Hi) in Lt. destruct (Good i col row Hc (proj2 Sm) Lt) as (y & Y1 & Y2). unfold sys_load. cbv zeta.
  set (s1 := if cached _ _ then _ else _). assert (Q : rpb s1 = n /\ nant s1 = na /\ status s1 = Running /\ tb s1 = tb (cst S i)).
  { destruct H as (R & _). unfold s1. destruct (cached _ _); cbn; rewrite R2, R3; auto. }
  destruct Q as (Q1 & Q2 & Q3 & Q4). clearbody s1. rewrite Q1, Q2. unfold disk in Y1. destruct (_ <? _); [|discriminate].
  destruct (readCompressedData m (row / n) col (co_blockSize col)) as [[y'|]| |]; try discriminate. injection Y1 as ->.
  cbn [dec System.colenv stored_column] in Y2. unfold System.colenv, stored_column in Y2. cbn [dec] in Y2.
  destruct (loadBlock _ _ _ _ _ _ _) as [rows| |]; [exact Q3|exfalso; apply Y2; now destruct (N.to_nat (row mod n))..].
Qed.

Lemma rd_moved S S' : RD S -> man S' = m -> ncol S' = ncol S -> running S' -> (forall j, (j < ncol S)%nat -> moved cfg T nt S S' j) -> RD S'.
Proof.
  intros H Em Nc R Mv. split; trivial. split; trivial. rewrite Nc. intros j Hj. destruct (Mv j Hj) as [E|Ss Nd|n' m' c Ha Hc Cl Rz Cj Clj E].
  - rewrite E. now apply H.
  - eapply rd_step; [now apply H| |]; trivial.
  - exfalso. pose proof (rd_rinv S j H Hj) as I. rewrite (r_rpb _ _ _ _ _ _ I) in Rz. contradiction.
Qed.

Lemma rd_reading S : sys_reading ok S0 S -> RD S.
Proof.
  induction 1 as [|S S' i row Hs IH Ok Sc|S S' i Hs IH Sc|S S' Hs IH Mv|S S' Hs IH Wk].
  - split; [now intros j _|]. split; [reflexivity|]. intros j _. apply rd_open.
  - destruct Sc as (Hi & R & C0 & Ci & U & _ & E & Em & Ea & Eo). destruct IH as (_ & Em0 & IH).
    assert (Nc : ncol S' = ncol S) by (unfold System.ncol; now rewrite Em). split; [|split; [now rewrite Em|]]; unfold System.running; rewrite Nc; intros j Hj;
      (destruct (Nat.eq_dec j i) as [->|Nj]; [rewrite E|rewrite (Eo j Nj); auto]).
    + now apply R.
    + now apply rd_get; auto.
  - destruct Sc as (Hi & R & C0 & Ci & U & _ & E & Em & Ea & Eo). destruct IH as (_ & Em0 & IH).
    assert (Nc : ncol S' = ncol S) by (unfold System.ncol; now rewrite Em). split; [|split; [now rewrite Em|]]; unfold System.running; rewrite Nc; intros j Hj;
      (destruct (Nat.eq_dec j i) as [->|Nj]; [rewrite E|rewrite (Eo j Nj); auto]).
    + now apply R.
    + apply rd_close; auto.
  - assert (X : man S' = m /\ running S').
    { pose proof (move_columns cfg T nt S S' Mv) as Nc.
      destruct Mv as [i x c Hi R Hc Mw P Oi E Em On|i b c col old Hn R Hc Mw Oi Lo Fo E Em On|i n' m' c Hi R Hc Mw Ha Oi Ei E Ea Eo|
        i n' m' c Hi R Hc Mw Ha Oi Ei E Em On|i n' m' c Hi R Hc Mw Ha E Em On|i k w y s' w' col Hn R Hw Ey E Es Em Ea Eo].
      - split; [rewrite Em; apply IH|]. unfold System.running. rewrite Nc. intros j Hj. destruct (Nat.eq_dec j i) as [->|Nj]; [|rewrite (proj2 On j Nj); now apply IH].
        apply (rd_runs S i); trivial; [|left; congruence]. apply step_int. apply step_main with (junk := None) (i := x) (c := c); trivial; [now apply R|exact Logic.I].
      - split; [rewrite Em; apply IH|]. unfold System.running. rewrite Nc. intros j Hj. destruct (Nat.eq_dec j i) as [->|Nj]; [|rewrite (proj2 On j Nj); now apply IH].
        rewrite E. pose proof (proj1 (proj2 IH)) as Em0. rewrite Em0 in *. apply rd_load; trivial.
      - exfalso. pose proof (rd_rinv S i IH Hi) as I. destruct (r_code _ _ _ _ _ _ I) as [[Q|[Q|[Q|Q]]]|(row & Sm & [Q|(Lt & [Q|[Q|[Q|(Cu & Q)]]])])]; congruence.
      - exfalso. pose proof (rd_rinv S i IH Hi) as I. destruct (r_code _ _ _ _ _ _ I) as [[Q|[Q|[Q|Q]]]|(row & Sm & [Q|(Lt & [Q|[Q|[Q|(Cu & Q)]]])])]; congruence.
      - exfalso. pose proof (rd_rinv S i IH Hi) as I. destruct (r_code _ _ _ _ _ _ I) as [[Q|[Q|[Q|Q]]]|(row & Sm & [Q|(Lt & [Q|[Q|[Q|(Cu & Q)]]])])]; congruence.
      - assert (Hi : (i < ncol S)%nat) by (apply nth_error_Some; congruence).
        pose proof (rd_rinv S i IH Hi) as I. pose proof (r_workers _ _ _ _ _ _ I w (nth_error_In _ _ Hw)) as Ww.
        assert (Em' : man S' = man S) by (destruct w; trivial; destruct Ww). split; [rewrite Em'; apply IH|].
        unfold System.running. rewrite Nc. intros j Hj. destruct (Nat.eq_dec j i) as [->|Nj]; [|rewrite (Eo j Nj); now apply IH].
        rewrite Es. apply (rd_runs S i); trivial.
        + apply step_int. apply step_worker with (w := w) (y := y); trivial. now apply R.
        + apply code_dec. now apply (wexec_closing _ _ _ _ _ k E). }
    destruct X as (Em & R'). apply (rd_moved S); trivial.
    + now apply (move_columns cfg T nt).
    + apply (moves cfg T nt A NT HA A32 S0 S S'); trivial; [now apply rd_si|]. apply (si_reach cfg T nt A NT HA A32); trivial; [|now rewrite Em].
      apply reading_sreach. eapply sr_move; eauto.
  - assert (Em : man S' = man S) by (destruct Wk; trivial). pose proof (wakes cfg T nt S S' Wk) as Mv.
    assert (Nc : ncol S' = ncol S) by (unfold System.ncol; now rewrite Em).
    apply (rd_moved S); trivial; [rewrite Em; apply IH|]. unfold System.running. rewrite Nc. intros j Hj. destruct (Mv j Hj) as [E|Ss Nd|n' m' c Ha Hc Cl Rz Cj Clj E].
    + rewrite E. now apply IH.
    + now apply (rd_runs S j).
    + rewrite E. now apply IH.
Qed.

(** what is read *)
Lemma rd_answers S i col : sys_reading ok S0 S -> nth_error (columns m) i = Some col -> forall r a, In (r, a) (outs (cst S i)) -> ok r /\ (nBlocksInFile m <= r / n -> a = AZero) /\
  forall y v, disk m col (r / n) = Some y -> nth_error (dec (colenv i) n na (r / n) y) (N.to_nat (r mod n)) = Some v -> a = AVals v.
Proof.
  intros Hs Hc r a Hin. pose proof (rd_reading S Hs) as (R & Em & H). assert (Hi : (i < ncol S)%nat) by (unfold System.ncol; rewrite Em; apply nth_error_Some; congruence).
  destruct (read_only (disk_of i) (nBlocksInFile m) n na Zn (disk_within i) ok (cst S i) (H i Hi) (R i Hi)) as (_ & _ & Q). destruct (Q r a Hin) as (Q1 & Q0 & Q2). split; trivial.
  rewrite (rd_nblk S i (conj R (conj Em H)) Hs Hi) in Q0. split; trivial.
  unfold disk_of in Q2. rewrite Hc in Q2. exact Q2.
Qed.
End SystemRead.
