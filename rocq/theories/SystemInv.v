(** Every column of a storage manager behaves as a column by itself, and the
    file holds what each column wrote. *)
From Verif Require Import Base BaseLemmas Floats TimeBlockBuffer TbbSpec BytePacker File FileProofs StMan StManSpec StManProofs.
From Verif Require Import StochasticEncoder TimeBlockEncoders Block Column ColumnSpec ColumnProofs ColumnInv ColumnReach StoredColumn System SystemSpec SystemLow SystemCols.
From Coq Require Import ZifyNat ZifyN.
Local Open Scope N_scope.

Local Arguments System.colenv : simpl never.

Lemma write_settings m b c d : rowsPerBlock (writeCompressedData m b c d) = rowsPerBlock m /\ antennaCount (writeCompressedData m b c d) = antennaCount m /\
  blockSize (writeCompressedData m b c d) = blockSize m /\ hdrSize (writeCompressedData m b c d) = hdrSize m /\ columns (writeCompressedData m b c d) = columns m /\
  nBlocksInFile (writeCompressedData m b c d) = N.max (nBlocksInFile m) (b + 1).
Proof. unfold writeCompressedData. destruct (N.leb_spec (nBlocksInFile m) b); cbn; repeat split; lia. Qed.

Section SystemInv.
Context (cfg : nat -> coldef) (T : table) (nt A : nat).
Hypotheses (NT : nt <> 0%nat) (HA : forall r, (fst (t_ants T r) < A)%nat /\ (snd (t_ants T r) < A)%nat) (A32 : N.of_nat A < 2 ^ 32).
Notation sys := (sys cfg T nt).
Notation cst := (cst cfg T nt). Notation man := (man cfg T nt). Notation active := (active cfg T nt).
Notation ncol := (ncol cfg T nt). Notation running := (running cfg T nt). Notation colenv := (colenv cfg T nt).

Notation described := (described cfg). Notation sstart := (sstart cfg T nt).

(** the block size of a column is that of the manager *)
Definition agree (S : sys) (i : nat) : Prop :=
  rpb (cst S i) = rowsPerBlock (man S) /\ (rpb (cst S i) <> 0 -> N.of_nat (nant (cst S i)) = antennaCount (man S)).

Definition synced (S : sys) (i : nat) : Prop :=
  (i = active S -> agree S i) /\
  (i <> active S ->
    (agree S i /\ (code (cst S i) = [] \/ code (cst S i) = [IStop; IStart] \/ code (cst S i) = [IJoin; IStart] \/ code (cst S i) = [IStart])) \/
    (exists m, code (cst S i) = [ISetRpb (rowsPerBlock (man S)) m; IStop; IStart] /\ N.of_nat m = antennaCount (man S) /\ rpb (cst S i) = 0)).

(** nothing to do, or closing *)
Definition ending (S : sys) (i : nat) : Prop := code (cst S i) = [] \/ code (cst S i) = [IShutdown] \/ closed (cst S i) = true.

Record SI (S0 S : sys) : Prop := {
  s_shape : Forall2 same_shape (columns (man S0)) (columns (man S));
  s_reach : forall i, (i < ncol S)%nat -> reach (cst S0 i) (cst S i);
  s_low : forall i, (i < ncol S)%nat -> low A (cst S i);
  s_nblk : forall i, (i < ncol S)%nat -> nblk (cst S i) = nBlocksInFile (man S);
  s_small : nBlocksInFile (man S) < 2 ^ 64;
  s_sync : forall i, (i < ncol S)%nat -> synced S i;
  s_closed : (exists j, (j < ncol S)%nat /\ closed (cst S j) = true) -> forall i, (i < ncol S)%nat -> ending S i;
  s_placed : placed (man S);
  s_none : rowsPerBlock (man S) = 0 -> nBlocksInFile (man S) = 0;
  s_begun : begun (man S);
  s_fits : fits32 (man S);
  s_file : forall i col b y, nth_error (columns (man S)) i = Some col -> file (cst S i) b = Some y ->
    b < nBlocksInFile (man S) /\ len y = co_blockSize col /\ readCompressedData (man S) b col (co_blockSize col) = Ok (Some y) }.

Lemma shape_length cs cs' : Forall2 same_shape cs cs' -> length cs' = length cs.
Proof. induction 1; cbn; congruence. Qed.

Lemma shape_trans cs cs' cs'' : Forall2 same_shape cs cs' -> Forall2 same_shape cs' cs'' -> Forall2 same_shape cs cs''.
Proof.
  intros H. revert cs''. induction H as [|c c' cs cs' (H1 & H2 & H3 & H4) _ IH]; intros cs'' H'; inversion H' as [|? ? ? ? (G1 & G2 & G3 & G4) Q]; subst; constructor; auto.
  repeat split; congruence.
Qed.

Lemma shape_refl cs : Forall2 same_shape cs cs.
Proof. induction cs; constructor; trivial. now repeat split. Qed.

Lemma shape_nth cs cs' : Forall2 same_shape cs cs' -> forall i c', nth_error cs' i = Some c' -> exists c, nth_error cs i = Some c /\ same_shape c c'.
Proof.
  induction 1 as [|c c' cs cs' H _ IH]; intros [|i] d E; cbn in *; try discriminate; eauto. injection E as <-. eauto.
Qed.

Lemma start_starts S0 : sstart S0 -> forall i, starts (cst S0 i).
Proof.
  intros [m Hn Hr Ha Hd|m Hr Hp Hn Hb Hd] i; cbn [System.cst snew sopen]; [constructor|]. constructor; trivial. intros b.
  destruct (nth_error (columns m) i); [|now intros H]. unfold disk. destruct (N.ltb_spec b (nBlocksInFile m)); trivial. now intros [].
Qed.

Lemma start_SI S0 : sstart S0 -> fits32 (man S0) -> SI S0 S0.
Proof.
  intros St Ft. pose proof (start_starts S0 St) as Ss. destruct St as [m Hn Hr Ha Hd|m Hr Hp Hn Hb Hd].
  - constructor; cbn; trivial.
    + apply shape_refl.
    + intros i _. constructor.
    + intros i _. constructor; cbn; try easy. 
    + intros i _. now symmetry.
    + rewrite Hn. reflexivity.
    + intros i _. split; intros _; [split; cbn; [now symmetry|now intros []]|]. left. split; [split; cbn; [now symmetry|now intros []]|now left].
    + intros (j & _ & H). discriminate.
    + intros Z. now destruct Z.
    + intros b Hb. lia.
    + discriminate.
  - cbn [System.man sopen] in Ft. assert (Ag : forall i, agree (sopen cfg T nt m) i) by (intros i; split; cbn; [trivial|intros _; apply N2Nat.id]).
    constructor; cbn; trivial.
    + apply shape_refl.
    + intros i _. constructor.
    + intros i _. constructor; cbn; try easy.
    + intros i _. split; intros _; [apply Ag|]. left. split; [apply Ag|now left].
    + intros (j & _ & H). discriminate.
    + intros Z. now destruct Hr.
    + intros i col b y Hi. rewrite Hi. unfold disk. destruct (N.ltb_spec b (nBlocksInFile m)) as [L|L]; [|discriminate].
      destruct (read_ok m Hp Ft Hr b i col Hi L Hb) as (r & -> & Hl). destruct r as [y'|]; [|discriminate]. intros [= <-]. split; trivial. split; [now apply Hl|trivial].
Qed.

Lemma col_env_nthreads i : nthreads (colenv i) <> 0%nat.
Proof. exact NT. Qed.

Lemma si_inv S0 S i : sstart S0 -> SI S0 S -> running S -> (i < ncol S)%nat -> inv (file (cst S0 i)) (cst S i).
Proof. intros St I R Hi. apply inv_reach; [exact NT|now apply start_starts|now apply (s_reach _ _ I)|now apply R]. Qed.

Lemma si_described S0 S i col : SI S0 S -> described (man S0) -> nth_error (columns (man S)) i = Some col ->
  describes (cfg i) col /\ (0 < nPol_of (cfg i))%nat /\ (0 < nChan_of (cfg i))%nat.
Proof.
  intros I D H. destruct (shape_nth _ _ (s_shape _ _ I) i col H) as (c & Hc & Sh). destruct (D i c Hc) as (D1 & D2). split; trivial. eapply shape_describes; eauto.
Qed.

(** a step of one column that the manager does not notice *)
Lemma si_col S0 S S' i : SI S0 S -> (i < ncol S)%nat -> man S' = man S -> (active S' = active S /\ forall j, j <> i -> cst S' j = cst S j) ->
  step (cst S i) (cst S' i) -> low A (cst S' i) -> nblk (cst S' i) = nblk (cst S i) -> file (cst S' i) = file (cst S i) -> synced S' i ->
  (closed (cst S' i) = true -> closed (cst S i) = true \/ forall j, (j < ncol S)%nat -> j <> i -> code (cst S j) = []) ->
  (closed (cst S i) = true \/ (exists j, (j < ncol S)%nat /\ closed (cst S j) = true) -> ending S i -> ending S' i) ->
  (closed (cst S' i) = true -> ending S' i) -> SI S0 S'.
Proof.
  intros I Hi Em (Ea & Eo) St Lw En Ef Sy C1 C2 C3.
  assert (Nc : ncol S' = ncol S) by (unfold System.ncol; now rewrite Em).
  assert (Cj : forall j, j = i \/ cst S' j = cst S j) by (intros j; destruct (Nat.eq_dec j i) as [->|Hj]; [now left|right; now apply Eo]).
  destruct I as [I1 I2 I3 I4 I5 I6 I7 I8 I9 I10 I11 I12]. constructor; rewrite ?Em, ?Nc; trivial.
  - intros j Hj. destruct (Cj j) as [->|E]; [eapply reach_step; eauto|rewrite E; auto].
  - intros j Hj. destruct (Cj j) as [->|E]; [trivial|rewrite E; auto].
  - intros j Hj. destruct (Cj j) as [->|E]; [rewrite En; auto|rewrite E; auto].
  - intros j Hj. destruct (Cj j) as [->|E]; [trivial|]. specialize (I6 j Hj). unfold synced, agree in *. now rewrite E, Ea, Em.
  - intros (j & Hj & Cl) k Hk. unfold ending.
    destruct (Cj j) as [->|E].
    + destruct (Cj k) as [->|Ek]; [now apply C3|]. rewrite Ek. destruct (C1 Cl) as [C|C]; [apply I7; eauto|].
      destruct (Nat.eq_dec k i) as [->|Hki]; [|left; now apply C]. rewrite <- Ek. now apply C3.
    + rewrite E in Cl. destruct (Cj k) as [->|Ek]; [|rewrite Ek; apply I7; eauto]. apply C2; [right; eauto|]. apply I7; eauto.
  - intros k col b y Hk. destruct (Cj k) as [->|Ek]; [rewrite Ef; auto|rewrite Ek; auto].
Qed.

Lemma ending_main S S' i x c : code (cst S i) = x :: c -> plain x = true -> exec None (cst S i) x c = Some (cst S' i) ->
  ending S i -> ending S' i.
Proof.
  intros Hc P E [H|[H|H]]; [congruence| |].
  - rewrite Hc in H. injection H as -> ->. cbn [exec] in E. injection E as E. right. right. now rewrite <- E.
  - right. right. now apply (exec_plain _ _ _ _ P E).
Qed.

Lemma si_main S0 S S' i x c : sstart S0 -> SI S0 S -> running S -> (i < ncol S)%nat -> code (cst S i) = x :: c -> mwait (cst S i) = false ->
  plain x = true -> i <> active S \/ others_idle cfg T nt S i -> exec None (cst S i) x c = Some (cst S' i) -> man S' = man S ->
  only cfg T nt S S' i -> running S' -> SI S0 S'.
Proof.
  intros St I R Hi Hc Mw P Oi E Em On R'. assert (Nc : ncol S' = ncol S) by (unfold System.ncol; now rewrite Em).
  assert (Ri : status (cst S' i) = Running) by (apply R'; lia).
  pose proof (exec_plain _ _ _ _ P E) as (E1 & E2 & E3 & E4 & E5 & E6).
  pose proof (si_inv _ _ _ St I R Hi) as Iv. pose proof (s_sync _ _ I i Hi) as (Sy1 & Sy2).
  assert (Ag : agree S i -> agree S' i) by (unfold agree; now rewrite E3, E4, Em).
  eapply (si_col S0 S S' i); eauto.
  - apply step_int. apply step_main with (junk := None) (i := x) (c := c); trivial; [now apply R|exact Logic.I].
  - eapply (@low_main (colenv i) A HA); eauto. now apply (s_low _ _ I).
  - destruct On as (Ea & On). split; rewrite Ea; [auto|]. intros Hn. destruct (Sy2 Hn) as [(Ag' & Cd)|(m & Cd & _)].
    2:{ rewrite Hc in Cd. injection Cd as -> _. discriminate. }
    left. split; [auto|]. rewrite Hc in Cd. destruct Cd as [Cd|[Cd|[Cd|Cd]]]; try discriminate; injection Cd as -> ->; cbn [exec] in E.
    + destruct (workers (cst S i)); destruct (cache (cst S i)); injection E as E; rewrite <- E in *; cbn in *; try discriminate; auto.
    + destruct (forallb _ _); [|discriminate]. injection E as E. rewrite <- E. cbn. auto.
    + injection E as E. rewrite <- E. cbn. auto.
  - intros Cl. destruct (E6 Cl) as [|H]; [now left|]. right. destruct Oi as [Oi|Oi]; [|exact Oi]. exfalso. subst x.
    destruct (Sy2 Oi) as [(_ & [Cd|[Cd|[Cd|Cd]]])|(m & Cd & _)]; rewrite Hc in Cd; discriminate.
  - intros _. eapply ending_main; eauto.
  - intros Cl. right. now right.
Qed.

(** spurious wake-ups *)
Lemma si_wake S0 S S' : SI S0 S -> swake cfg T nt S S' -> SI S0 S'.
Proof.
  intros I [i k Hi Hw E Em On|i Hi Hm E Em On].
  - assert (X : forall P : state (colenv i) -> Prop, P (set_worker (cst S i) k WWoken) -> P (cst S' i)) by (intros P; now rewrite E).
    eapply (si_col S0 S S' i); eauto; rewrite ?E; trivial; unfold ending, synced, agree; rewrite ?E, ?Em; cbn; auto.
    + now apply step_spurious.
    + apply (low_ext A (cst S i)); trivial. now apply (s_low _ _ I).
    + destruct On as (-> & _). exact (s_sync _ _ I i Hi).
  - eapply (si_col S0 S S' i); eauto; rewrite ?E; trivial; unfold ending, synced, agree; rewrite ?E, ?Em; cbn; auto.
    + now apply step_spurious_main.
    + apply (low_ext A (cst S i)); trivial. now apply (s_low _ _ I).
    + destruct On as (-> & _). exact (s_sync _ _ I i Hi).
Qed.

Lemma si_call S0 S S' i (a : call (colenv i)) : SI S0 S -> scall cfg T nt S S' i a -> SI S0 S'.
Proof.
  intros I (Hi & R & Id & Cl & Ua & Op & E & Em & Ea & Eo).
  assert (Nc : ncol S' = ncol S) by (unfold System.ncol; now rewrite Em).
  assert (Ag : forall j, (j < ncol S)%nat -> agree S j).
  { intros j Hj. destruct (s_sync _ _ I j Hj) as (S1 & S2). destruct (Nat.eq_dec j (active S)) as [Hja|Hja]; [auto|].
    destruct (S2 Hja) as [(H & _)|(m & H & _)]; [trivial|]. rewrite Id in H by trivial. discriminate. }
  assert (Cj : forall j, j = i \/ (j <> i /\ cst S' j = cst S j)) by (intros j; destruct (Nat.eq_dec j i) as [->|Hj]; [now left|right; auto]).
  destruct I as [I1 I2 I3 I4 I5 I6 I7 I8 I9 I10 I11 I12]. constructor; rewrite ?Em, ?Nc; trivial.
  - intros j Hj. destruct (Cj j) as [->|(_ & ->)]; [|auto]. eapply reach_step; [auto|]. rewrite E. apply step_call; auto. destruct a; cbn in *; tauto.
  - intros j Hj. destruct (Cj j) as [->|(_ & ->)]; [|auto]. rewrite E. destruct (I3 i Hi) as [L1 L2 L3 L4 L5 L6 L7 L8].
    constructor; cbn; trivial; destruct a; cbn in *; try tauto; intros; intuition discriminate.
  - intros j Hj. destruct (Cj j) as [->|(_ & ->)]; [rewrite E; cbn|]; auto.
  - intros j Hj. split; rewrite Ea.
    + intros ->. specialize (Ag i Hi). unfold agree in *. rewrite E, Em. exact Ag.
    + intros Hn. left. destruct (Cj j) as [->|(_ & Ej)]; [easy|]. rewrite Ej, Id by trivial. split; [|now left].
      specialize (Ag j Hj). unfold agree in *. now rewrite Ej, Em.
  - intros (j & Hj & Cj') k Hk. unfold ending. assert (Sh : a = Shutdown).
    { assert (Cs : closed (cst S j) = true) by (destruct (Cj j) as [->|(_ & Ej)]; [now rewrite E in Cj'|now rewrite Ej in Cj']).
      destruct a; trivial; rewrite (Op ltac:(discriminate) j Hj) in Cs; discriminate. }
    subst a. destruct (Cj k) as [->|(_ & ->)]; [rewrite E; cbn; auto|]. left. now apply Id.
  - intros k col b y Hk. destruct (Cj k) as [->|(_ & ->)]; [rewrite E; cbn|]; auto.
Qed.

Lemma dec_load i rp na b y rows : loadBlock (codec_of (cfg i)) (bits_of (cfg i)) (N.to_nat rp) na (block_ants T rp b) y
  (repeat 0 (nSymbols (codec_of (cfg i)) (N.to_nat rp))) = Ok rows -> dec (colenv i) rp na b y = rows.
Proof. intros E. unfold System.colenv, stored_column. cbn [dec]. now rewrite E. Qed.

Lemma total_shape n na cs cs' : Forall2 same_shape cs cs' -> total n na cs' = total n na cs.
Proof.
  induction 1 as [|c c' cs cs' (H1 & H2 & H3 & H4) _ IH]; trivial. unfold total in *. cbn [fold_right]. rewrite IH. f_equal.
  unfold StMan.CalculateBlockSize. now rewrite H1, H2, H3, H4.
Qed.

(** loadBlock is a step of the column *)
Lemma load_step S0 S S' i b c col old : SI S0 S -> nth_error (columns (man S)) i = Some col ->
  cst S' i = sys_load cfg T nt (man S) i col old (set_code (cst S i) c) b -> status (cst S' i) = Running ->
  exists junk, exec junk (cst S i) (ILoad b) c = Some (cst S' i) /\ junk_ok (cst S i) junk.
Proof.
  intros I Hn E Ri. assert (Hi : (i < ncol S)%nat) by (unfold System.ncol; apply nth_error_Some; now rewrite Hn).
  cbn [exec]. rewrite E in Ri |- *. unfold sys_load, load in *. cbv zeta in *.
    set (s1 := if cached _ b then _ else _) in *.
    assert (Q : file s1 = file (cst S i) /\ nblk s1 = nblk (cst S i) /\ rpb s1 = rpb (cst S i) /\ nant s1 = nant (cst S i) /\ status s1 = status (cst S i) /\ tb s1 = tb (cst S i))
      by (unfold s1; destruct (cached _ b); now repeat split).
    destruct Q as (Q1 & Q2 & Q3 & Q4 & Q5 & Q6). clearbody s1. rewrite Q1, Q2, Q3, Q4, Q6 in *. rewrite (s_nblk _ _ I i Hi).
    destruct (N.ltb_spec b (nBlocksInFile (man S))) as [L|L]; [|exists None; now split].
    destruct (readCompressedData (man S) b col (co_blockSize col)) as [r| |] eqn:Er; try discriminate.
    destruct (loadBlock _ _ _ _ _ _ _) as [rows| |] eqn:El; try discriminate.
    exists (Some rows). split.
    - destruct (file (cst S i) b) as [y|] eqn:Ef; [|reflexivity]. destruct (s_file _ _ I i col b y Hn Ef) as (_ & _ & Er').
      rewrite Er in Er'. injection Er' as ->.
      now rewrite (dec_load _ _ _ _ _ _ El).
    - destruct (load_rows _ _ _ _ _ _ _ _ El) as (L1 & L2). split; [|exact L2]. rewrite <- (N2Nat.id (rpb (cst S i))). exact (f_equal N.of_nat L1).
Qed.

(** a step after which the column's file, number of blocks and block size are the same *)
Lemma si_load S0 S S' i b c col old : sstart S0 -> SI S0 S -> running S -> nth_error (columns (man S)) i = Some col ->
  code (cst S i) = ILoad b :: c -> mwait (cst S i) = false ->
  cst S' i = sys_load cfg T nt (man S) i col old (set_code (cst S i) c) b -> man S' = man S -> only cfg T nt S S' i -> running S' -> SI S0 S'.
Proof.
  intros St I R Hn Hc Mw E Em On R'. assert (Nc : ncol S' = ncol S) by (unfold System.ncol; now rewrite Em).
  assert (Hi : (i < ncol S)%nat) by (unfold System.ncol; apply nth_error_Some; now rewrite Hn).
  assert (Ri : status (cst S' i) = Running) by (apply R'; lia).
  pose proof (si_inv _ _ _ St I R Hi) as Iv. pose proof (s_sync _ _ I i Hi) as (Sy1 & Sy2).
  assert (Ha : i = active S).
  { destruct (Nat.eq_dec i (active S)) as [|N]; [trivial|exfalso]. destruct (Sy2 N) as [(_ & [Cd|[Cd|[Cd|Cd]]])|(m & Cd & _)]; rewrite Hc in Cd; discriminate. }
  destruct (load_step S0 S S' i b c col old I Hn E Ri) as (junk & X & Jk).
  assert (F : file (cst S' i) = file (cst S i) /\ nblk (cst S' i) = nblk (cst S i) /\ rpb (cst S' i) = rpb (cst S i) /\ nant (cst S' i) = nant (cst S i) /\
    closed (cst S' i) = closed (cst S i)).
  { cbn [exec] in X. injection X as X. rewrite <- X. unfold load. cbv zeta. destruct (cached _ b); destruct (_ <? _); cbn [file add_fault set_code]; try (now repeat split); destruct (file (cst S i) b); try destruct junk; now repeat split. }
  destruct F as (F1 & F2 & F3 & F4 & F5).
  eapply (si_col S0 S S' i); eauto.
  - apply step_int. apply step_main with (junk := junk) (i := ILoad b) (c := c); trivial. now apply R.
  - eapply (@low_main (colenv i) A HA); eauto. now apply (s_low _ _ I).
  - destruct On as (Ea & On). split; rewrite Ea; [intros _|easy]. specialize (Sy1 Ha). unfold agree in *. now rewrite F3, F4, Em.
  - intros _ [H|[H|H]]; [congruence|congruence|]. right. right. now rewrite F5.
  - intros H. right. now right.
Qed.

Lemma si_follow S0 S S' i n m c : sstart S0 -> SI S0 S -> running S -> (i < ncol S)%nat -> code (cst S i) = ISetRpb n m :: c -> mwait (cst S i) = false ->
  i <> active S -> exec None (cst S i) (ISetRpb n m) c = Some (cst S' i) -> man S' = man S -> only cfg T nt S S' i -> running S' -> SI S0 S'.
Proof.
  intros St I R Hi Hc Mw Ha E Em On R'. assert (Nc : ncol S' = ncol S) by (unfold System.ncol; now rewrite Em).
  assert (Ri : status (cst S' i) = Running) by (apply R'; lia).
  pose proof (si_inv _ _ _ St I R Hi) as Iv. pose proof (s_sync _ _ I i Hi) as (Sy1 & Sy2).
  destruct (exec_set _ _ _ _ _ _ E) as (E1 & E2 & E3 & E4 & E5 & E6 & E7).
  eapply (si_col S0 S S' i); eauto.
  - apply step_int. apply step_main with (junk := None) (i := ISetRpb n m) (c := c); trivial; [now apply R|exact Logic.I].
  - eapply (@low_main (colenv i) A HA); eauto. now apply (s_low _ _ I).
  - destruct On as (Ea & On). split; rewrite Ea; [easy|]. intros _. left. unfold agree. rewrite E3, E4, E6, Em.
    destruct (Sy2 Ha) as [(_ & [Cd|[Cd|[Cd|Cd]]])|(m' & Cd & Cm & _)]; rewrite Hc in Cd; try discriminate. injection Cd as -> -> ->. auto.
  - intros _ [H|[H|H]]; [congruence|congruence|]. right. right. now rewrite E5.
  - intros H. right. now right.
Qed.

Lemma si_init S0 S S' i n m c : sstart S0 -> SI S0 S -> running S -> (i < ncol S)%nat -> code (cst S i) = ISetRpb n m :: c -> mwait (cst S i) = false ->
  i = active S -> others_idle cfg T nt S i -> initializeRowsPerBlock (man S) n (N.of_nat m) true = Ok (man S') ->
  exec None (cst S i) (ISetRpb n m) c = Some (cst S' i) -> active S' = active S ->
  (forall j, j <> i -> cst S' j = set_code (cst S j) (call_code (OtherInit n m))) -> running S' -> fits32 (man S') -> SI S0 S'.
Proof.
  intros St I R Hi Hc Mw Ha Oi Ei E Ea Eo R' Ft.
  pose proof (si_inv _ _ _ St I R Hi) as Iv. pose proof (s_sync _ _ I i Hi) as (Sy1 & Sy2).
  destruct (exec_set _ _ _ _ _ _ E) as (E1 & E2 & E3 & E4 & E5 & E6 & E7).
  destruct (l_set _ _ (s_low _ _ I i Hi) n m) as (Ln & Lm); [rewrite Hc; now left|].
  assert (Lm' : N.of_nat m < 2 ^ 32) by lia.
  destruct (init_manager _ _ _ _ Ln Lm' Ei) as (M1 & M2 & M3 & M4 & M5).
  assert (B : closed (cst S i) = false /\ rpb (cst S i) = 0).
  { pose proof (i_phase _ _ Iv) as P. rewrite Hc in P. inversion P; try (match goal with H : maybe_store ?st ++ _ = _ |- _ => destruct st; discriminate end). split; trivial. match goal with H : base _ |- _ => apply H end. }
  destruct B as (Cl & Rz). specialize (Sy1 Ha). assert (Z : rowsPerBlock (man S) = 0) by (destruct Sy1 as (H & _); now rewrite <- H).
  pose proof (s_none _ _ I Z) as Nz.
  assert (Nc : ncol S' = ncol S) by (unfold System.ncol; now apply shape_length).
  assert (Op : forall j, (j < ncol S)%nat -> closed (cst S j) = false).
  { intros j Hj. destruct (closed (cst S j)) eqn:Cj; trivial. destruct (s_closed _ _ I (ex_intro _ j (conj Hj Cj)) i Hi) as [H|[H|H]]; congruence. }
  assert (Ri : status (cst S' i) = Running) by (apply R'; lia).
  assert (Rj : forall j, (j < ncol S)%nat -> j <> i -> rpb (cst S j) = 0).
  { intros j Hj N. destruct (s_sync _ _ I j Hj) as (_ & H). destruct H as [((H & _) & _)|(m' & H & _)]; [congruence|congruence|].
    rewrite (Oi j Hj N) in H. discriminate. }
  assert (Cj : forall j, j = i \/ (j <> i /\ cst S' j = set_code (cst S j) (call_code (OtherInit n m)))) by (intros j; destruct (Nat.eq_dec j i) as [->|N]; auto).
  assert (Ff : forall j, file (cst S' j) = file (cst S j) /\ nblk (cst S' j) = nblk (cst S j) /\ closed (cst S' j) = closed (cst S j))
    by (intros j; destruct (Cj j) as [->|(_ & ->)]; now repeat split).
  constructor; rewrite ?Nc, ?M3; trivial.
  - eapply shape_trans; [apply (s_shape _ _ I)|exact M4].
  - intros j Hj. apply reach_step with (s := cst S j); [now apply (s_reach _ _ I)|]. destruct (Cj j) as [->|(N & ->)].
    + apply step_int. apply step_main with (junk := None) (i := ISetRpb n m) (c := c); trivial; [now apply R|exact Logic.I].
    + apply step_call; [now apply R|now apply Oi|now apply Op|now apply Rj].
  - intros j Hj. destruct (Cj j) as [->|(N & ->)].
    + eapply (@low_main (colenv i) A HA); eauto. now apply (s_low _ _ I).
    + destruct (s_low _ _ I j Hj) as [L1 L2 L3 L4 L5 L6 L7 L8]. constructor; cbn; trivial; try (intuition discriminate).
      intros n' m' [[= <- <-]|[|[|[]]]]; [now split|discriminate|discriminate].
  - intros j Hj. destruct (Ff j) as (_ & -> & _). now apply (s_nblk _ _ I).
  - apply (s_small _ _ I).
  - intros j Hj. split; rewrite Ea.
    + intros ->. rewrite <- Ha in *. split; rewrite ?E3, ?E4, ?M1, ?M2; trivial.
    + intros N. rewrite <- Ha in N. right. exists m. rewrite M1, M2, (Eo j N). split; [reflexivity|]. split; [reflexivity|]. now apply Rj.
  - intros (j & Hj & H). destruct (Ff j) as (_ & _ & F). rewrite F, Op in H by trivial. discriminate.
  - intros b Hb. lia.
  - intros j col b y Hj. destruct (Ff j) as (-> & _). intros H. exfalso.
    destruct (nth_error (columns (man S)) j) as [col0|] eqn:Ej.
    + destruct (s_file _ _ I j col0 b y Ej H) as (L & _). lia.
    + apply nth_error_None in Ej. assert (j < length (columns (man S')))%nat by (apply nth_error_Some; now rewrite Hj). apply shape_length in M4. lia.
Qed.

(** a step of a worker, when the manager's settings are the same afterwards *)
Lemma si_workers S0 S S' i k w y s' w' : sstart S0 -> SI S0 S -> running S -> (i < ncol S)%nat -> nth_error (workers (cst S i)) k = Some w ->
  (forall b x, w = WPicked b x -> encodable (colenv i) (rpb (cst S i)) (nant (cst S i)) x = true -> enc (colenv i) (rpb (cst S i)) (nant (cst S i)) x y) ->
  wexec y (cst S i) w = Some (s', w') -> cst S' i = set_worker s' k w' -> active S' = active S ->
  (forall j, j <> i -> cst S' j = set_file (cst S j) (file (cst S j)) (nBlocksInFile (man S'))) -> running S' ->
  rowsPerBlock (man S') = rowsPerBlock (man S) -> antennaCount (man S') = antennaCount (man S) -> blockSize (man S') = blockSize (man S) ->
  hdrSize (man S') = hdrSize (man S) -> columns (man S') = columns (man S) -> nBlocksInFile (man S) <= nBlocksInFile (man S') -> nBlocksInFile (man S') < 2 ^ 64 ->
  nblk (cst S' i) = nBlocksInFile (man S') -> (rowsPerBlock (man S) = 0 -> nBlocksInFile (man S') = 0) -> begun (man S') ->
  (forall j col b z, nth_error (columns (man S)) j = Some col -> file (cst S' j) b = Some z ->
    b < nBlocksInFile (man S') /\ len z = co_blockSize col /\ readCompressedData (man S') b col (co_blockSize col) = Ok (Some z)) -> SI S0 S'.
Proof.
  intros St I R Hi Hw Ey E Es Ea Eo R' M1 M2 M3 M4 M5 M6 M7 M8 M9 M10 M11.
  assert (Nc : ncol S' = ncol S) by (unfold System.ncol; now rewrite M5).
  destruct (wexec_fields _ _ _ _ _ k E) as (F1 & F2 & F3 & F4 & _). cbv zeta in *. rewrite <- Es in *.
  assert (Cj : forall j, j = i \/ (j <> i /\ cst S' j = set_file (cst S j) (file (cst S j)) (nBlocksInFile (man S')))) by (intros j; destruct (Nat.eq_dec j i) as [->|N]; auto).
  assert (Ff : forall j, rpb (cst S' j) = rpb (cst S j) /\ nant (cst S' j) = nant (cst S j) /\ closed (cst S' j) = closed (cst S j) /\ code (cst S' j) = code (cst S j))
    by (intros j; destruct (Cj j) as [->|(_ & ->)]; now repeat split).
  constructor; rewrite ?Nc; trivial.
  - rewrite M5. apply (s_shape _ _ I).
  - intros j Hj. apply reach_step with (s := cst S j); [now apply (s_reach _ _ I)|]. destruct (Cj j) as [->|(N & ->)].
    + rewrite Es. apply step_int. apply step_worker with (w := w) (y := y); trivial. now apply R.
    + apply step_bump; trivial; [now rewrite (s_nblk _ _ I j Hj)|]. apply (l_mgr _ _ (s_low _ _ I j Hj)).
  - intros j Hj. destruct (Cj j) as [->|(N & ->)].
    + rewrite Es. eapply low_worker; eauto. now apply (s_low _ _ I).
    + apply (low_ext A (cst S j)); trivial. now apply (s_low _ _ I).
  - intros j Hj. destruct (Cj j) as [->|(N & ->)]; trivial.
  - intros j Hj. destruct (Ff j) as (G1 & G2 & _ & G4). pose proof (s_sync _ _ I j Hj) as Q. unfold synced, agree in *. now rewrite G1, G2, G4, M1, M2, Ea.
  - intros (j & Hj & H) j2 Hj2. destruct (Ff j) as (_ & _ & F & _). rewrite F in H. destruct (Ff j2) as (_ & _ & G3 & G4). unfold ending. rewrite G3, G4.
    apply (s_closed _ _ I); eauto.
  - unfold placed. rewrite M1, M2, M3, M5. exact (s_placed _ _ I).
  - rewrite M1. trivial.
  - unfold fits32. rewrite M1, M2, M5. exact (s_fits _ _ I).
  - now rewrite M5.
Qed.

Lemma si_worker S0 S S' i k w y s' w' col : sstart S0 -> described (man S0) -> SI S0 S -> running S -> nth_error (columns (man S)) i = Some col -> nth_error (workers (cst S i)) k = Some w ->
  (forall b x, w = WPicked b x -> encodable (colenv i) (rpb (cst S i)) (nant (cst S i)) x = true -> enc (colenv i) (rpb (cst S i)) (nant (cst S i)) x y) ->
  wexec y (cst S i) w = Some (s', w') -> cst S' i = set_worker s' k w' ->
  man S' = match w with
           | WPicked b x => if encodable (colenv i) (rpb (cst S i)) (nant (cst S i)) x then writeCompressedData (man S) b col y else man S
           | _ => man S
           end ->
  active S' = active S -> (forall j, j <> i -> cst S' j = set_file (cst S j) (file (cst S j)) (nBlocksInFile (man S'))) -> running S' -> SI S0 S'.
Proof.
  intros St De I R Hn Hw Ey E Es Em Ea Eo R'. assert (Hi : (i < ncol S)%nat) by (unfold System.ncol; apply nth_error_Some; now rewrite Hn).
  pose proof (si_inv _ _ _ St I R Hi) as Iv.
  assert (Ri : status (cst S' i) = Running).
  { apply R'. replace (ncol S') with (ncol S); trivial. unfold System.ncol. f_equal. rewrite Em. destruct w; trivial. destruct (encodable _ _ _ _); trivial. symmetry. apply write_settings. }
  destruct (wexec_fields _ _ _ _ _ k E) as (_ & _ & _ & _ & _ & _ & _ & F). cbv zeta in F. rewrite <- Es in F. specialize (F (R i Hi) Ri).
  assert (Cj : forall j, j = i \/ (j <> i /\ cst S' j = set_file (cst S j) (file (cst S j)) (nBlocksInFile (man S')))) by (intros j; destruct (Nat.eq_dec j i) as [->|N]; auto).
  assert (Same : man S' = man S -> file (cst S' i) = file (cst S i) /\ nblk (cst S' i) = nblk (cst S i) -> SI S0 S').
  { intros Em' (F1 & F2). eapply si_workers; eauto; rewrite Em'; trivial.
    - reflexivity.
    - apply (s_small _ _ I).
    - rewrite F2. now apply (s_nblk _ _ I).
    - apply (s_none _ _ I).
    - apply (s_begun _ _ I).
    - intros j cj b z Hj Hf. apply (s_file _ _ I j cj b z Hj). destruct (Cj j) as [->|(_ & Ej)]; [now rewrite <- F1|]. now rewrite Ej in Hf. }
  destruct w as [| | |b x|b|]; [now apply Same..| | |]; try (now apply Same). destruct F as (F1 & F2 & F3). rewrite F1 in Em.
  specialize (Ey b x eq_refl F1). assert (Hb : b < 2 ^ 32 /\ x <> []).
  { apply (l_last _ _ (s_low _ _ I i Hi)). eapply (i_last _ _ Iv), (i_picked _ _ Iv), nth_error_In; eauto. }
  destruct Hb as (Hb & Hx). assert (Rn : rpb (cst S i) <> 0).
  { pose proof (proj1 Ey) as L. cbn in L. destruct x; [easy|]. cbn in L. lia. }
  assert (Ag : agree S i).
  { destruct (s_sync _ _ I i Hi) as (S1 & S2). destruct (Nat.eq_dec i (active S)) as [H|H]; [auto|]. destruct (S2 H) as [(G & _)|(m & _ & _ & G)]; [trivial|easy]. }
  destruct Ag as (Ag1 & Ag2). specialize (Ag2 Rn). assert (Rm : rowsPerBlock (man S) <> 0) by congruence.
  destruct (si_described _ _ _ _ I De Hn) as (Ds & Dp & Dc).
  assert (Ly : len y = co_blockSize col).
  { rewrite (placed_size _ (s_placed _ _ I) Rm i col Hn), <- Ag2, (size_agrees _ _ _ _ Ds). unfold len. f_equal. rewrite <- Ag1. exact (enc_length _ _ _ _ _ _ _ Ey). }
  assert (Py : y <> []).
  { intros ->. rewrite (placed_size _ (s_placed _ _ I) Rm i col Hn) in Ly. pose proof (size_pos _ _ (rowsPerBlock (man S)) (antennaCount (man S)) Ds Dp Dc Rm). cbn in Ly. lia. }
  pose proof (write_settings (man S) b col y) as (W1 & W2 & W3 & W4 & W5 & W6). rewrite <- Em in W1, W2, W3, W4, W5, W6.
  pose proof (writeCompressed_fil (man S) b col y) as Wf. rewrite <- Em in Wf.
  destruct (at_fwrite (fil (man S)) (blockSize (man S) * b + hdrSize (man S) + co_offset col) y Py) as (Wa & _). rewrite <- Wf in Wa.
  pose proof (fsize_fwrite_le (fil (man S)) (blockSize (man S) * b + hdrSize (man S) + co_offset col) y) as Wl. rewrite <- Wf in Wl.
  pose proof (s_small _ _ I) as Sm.
  apply (si_workers S0 S S' i k (WPicked b x) y s' w'); trivial.
  - intros b' x' [= <- <-] _. exact Ey.
  - rewrite W6. lia.
  - rewrite W6. lia.
  - rewrite F3, (s_nblk _ _ I i Hi), W6. destruct (N.leb_spec (nBlocksInFile (man S)) b); [rewrite N.mod_small|]; lia.
  - easy.
  - intros b' Hb'. rewrite W3, W4. pose proof (s_begun _ _ I b') as Bg. destruct (N.lt_ge_cases b' (nBlocksInFile (man S))) as [L|L]; [lia|].
    assert (blockSize (man S) * b' <= blockSize (man S) * b) by (apply N.mul_le_mono_l; lia). assert (0 < len y) by (unfold len; destruct y; [easy|cbn; lia]). lia.
  - intros j cj b' z Hj Hf. destruct (Cj j) as [->|(Hji & Ej)].
    + rewrite Hn in Hj. injection Hj as <-. rewrite F2 in Hf. unfold upd_map in Hf. destruct (N.eqb_spec b' b) as [->|Nb].
      * injection Hf as <-. split; [lia|]. split; trivial. rewrite Em. now apply read_write_same.
      * destruct (s_file _ _ I i col b' z Hn Hf) as (G1 & G2 & G3). split; [lia|]. split; trivial. rewrite Em. apply read_write_other; [|lia|trivial].
        apply (placed_disjoint _ (s_placed _ _ I) (s_fits _ _ I) Rm b b' i i); trivial. congruence.
    + rewrite Ej in Hf. cbn in Hf. destruct (s_file _ _ I j cj b' z Hj Hf) as (G1 & G2 & G3). split; [lia|]. split; trivial. rewrite Em. apply read_write_other; [|lia|trivial].
      apply (placed_disjoint _ (s_placed _ _ I) (s_fits _ _ I) Rm b b' i j); trivial. congruence.
Qed.

Definition small32 (m : stman) : Prop := rowsPerBlock m < 2 ^ 32 /\ antennaCount m < 2 ^ 32.

Lemma init_fits m n na m' : small32 m -> initializeRowsPerBlock m n na true = Ok m' -> small32 m' /\ (fits32 m' -> fits32 m).
Proof.
  intros (S1 & S2). unfold initializeRowsPerBlock, areOffsetsInitialized.
  pose proof (place_shapes (u32 n) (u32 na) (columns m) 0) as Sh. destruct (place _ _ _ _) as (cs & t). cbn [fst] in Sh.
  destruct (N.eqb_spec (rowsPerBlock m) 0) as [Z|Z]; cbn [negb andb].
  - intros [= <-]. unfold small32, fits32. cbn. split; [split; now apply N.mod_lt|]. easy.
  - destruct (N.eqb_spec n (rowsPerBlock m)) as [->|]; [|discriminate]. destruct (N.eqb_spec na (antennaCount m)) as [->|]; [|discriminate].
    cbn [negb andb]. intros [= <-]. unfold small32, fits32, u32. cbn. rewrite !N.mod_small by trivial. split; [now split|]. intros F _. specialize (F Z).
    rewrite <- (total_shape _ _ _ _ Sh). exact F.
Qed.

Lemma sstep_running S S' : sstep cfg T nt S S' -> running S' -> running S.
Proof.
  intros [H|i a (_ & R & _)|[i k Hi Hw E Em (_ & On)|i Hi Hm E Em (_ & On)]] R'; trivial.
  - now destruct H.
  - intros j Hj. assert (Rj : status (cst S' j) = Running) by (apply R'; unfold System.ncol in *; now rewrite Em).
    destruct (Nat.eq_dec j i) as [->|N]; [now rewrite E in Rj|now rewrite On in Rj].
  - intros j Hj. assert (Rj : status (cst S' j) = Running) by (apply R'; unfold System.ncol in *; now rewrite Em).
    destruct (Nat.eq_dec j i) as [->|N]; [now rewrite E in Rj|now rewrite On in Rj].
Qed.

Lemma sstep_fits S S' : sstep cfg T nt S S' -> small32 (man S) -> small32 (man S') /\ (fits32 (man S') -> fits32 (man S)).
Proof.
  intros H Sm. assert (X : forall m, m = man S -> small32 m /\ (fits32 m -> fits32 (man S))) by (intros m ->; auto).
  destruct H as [H|i a (_ & _ & _ & _ & _ & _ & _ & H & _)|[]]; auto. destruct H as [| |i n m c Hi R Hc Mw Ha Oi Ei| | |i k w y s' w' col Hn R Hw Ey E Es Em]; auto.
  - eapply init_fits; eauto.
  - rewrite Em. destruct w; auto. destruct (encodable _ _ _ _); auto. unfold small32, fits32.
    destruct (write_settings (man S) b col y) as (-> & -> & _ & _ & -> & _). auto.
Qed.

Lemma si_move S0 S S' : sstart S0 -> described (man S0) -> SI S0 S -> smove cfg T nt S S' -> running S' -> fits32 (man S') -> SI S0 S'.
Proof.
  intros St De I H R' Ft. destruct H as [i x c Hi R Hc Mw P Oi E Em On|i b c col old Hn R Hc Mw Oi Lo Fo E Em On|i n m c Hi R Hc Mw Ha Oi Ei E Ea Eo|
    i n m c Hi R Hc Mw Ha Oi Ei E Em On|i n m c Hi R Hc Mw Ha E Em On|i k w y s' w' col Hn R Hw Ey E Es Em Ea Eo].
  - eapply si_main; eauto.
  - eapply si_load; eauto.
  - eapply si_init; eauto.
  - exfalso. assert (Ri : status (cst S' i) = Running) by (apply R'; unfold System.ncol; now rewrite Em). rewrite E in Ri. discriminate.
  - eapply si_follow; eauto.
  - eapply si_worker; eauto.
Qed.

Lemma start_described S0 : sstart S0 -> described (man S0).
Proof. now intros []. Qed.

Lemma start_small S0 : sstart S0 -> small32 (man S0).
Proof.
  intros [m Hn Hr Ha Hd|m Hr Hp Hn Hb Hd]; cbn.
  - split; [rewrite Hr; reflexivity|trivial].
  - destruct (Hp Hr) as (H1 & H2 & _). now split.
Qed.

Theorem si_reach S0 S : sstart S0 -> sreach cfg T nt S0 S -> running S -> fits32 (man S) -> SI S0 S.
Proof.
  intros St H R Ft. assert (X : small32 (man S) /\ (running S -> fits32 (man S) -> SI S0 S)); [|now apply X]. clear R Ft.
  induction H as [|S S' H IH Hs].
  - split; [now apply start_small|]. intros _ Ft. now apply start_SI.
  - destruct IH as (Sm & IH). destruct (sstep_fits _ _ Hs Sm) as (Sm' & Ft). split; trivial. intros R' Ft'. specialize (IH (sstep_running _ _ Hs R') (Ft Ft')).
    destruct Hs as [Hs|i a Hs|Hs].
    + eapply si_move; eauto. now apply start_described.
    + eapply si_call; eauto.
    + eapply si_wake; eauto.
Qed.

End SystemInv.
