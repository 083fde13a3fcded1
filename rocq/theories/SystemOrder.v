(** A new table written in row order, all columns. *)
From Verif Require Import Base BaseLemmas Floats TimeBlockBuffer TbbSpec BytePacker File FileProofs StMan StManSpec StManProofs.
From Verif Require Import StochasticEncoder TimeBlockEncoders Block Column ColumnSpec ColumnProofs ColumnInv ColumnReach ColumnTerm ColumnData ColumnOrder ColumnWhole ColumnAmong StoredColumn System SystemSpec SystemLow SystemCols SystemInv.
From Coq Require Import ZifyNat ZifyN.
Local Open Scope N_scope.

Local Arguments System.colenv : simpl never.

(** ** One column: nothing to do, or closing *)
Definition cending {e} (s : state e) : Prop := code s = [] \/ code s = [IShutdown] \/ closed s = true.
Definition cpre {e} (s : state e) : Prop := code s = [IShutdown] \/ closed s = true.

Lemma exec_closing {e} junk (s s' : state e) x c : code s = x :: c -> exec junk s x c = Some s' ->
  (In IShutdown (code s') -> In IShutdown c) /\ (closed s = true -> closed s' = true) /\ (closed s' = true -> closed s = true \/ x = IShutdown).
Proof.
  intros Hc E.
  destruct x; cbn [exec] in E; repeat match type of E with
    | (if ?b then _ else _) = Some _ => destruct b
    | match ?b with _ => _ end = Some _ => destruct b
    end; try discriminate; injection E as <-; unfold put_buffer, load, notify; cbv zeta;
    repeat match goal with
    | |- context [if ?b then _ else _] => destruct b
    | |- context [match ?b with _ => _ end] => destruct b
    end; cbn; rewrite ?Hc, ?in_app_iff; cbn; intuition (auto; try discriminate).
Qed.

Lemma wexec_closing {e} y (s s1 : state e) w w1 k : wexec y s w = Some (s1, w1) -> code (set_worker s1 k w1) = code s /\ closed (set_worker s1 k w1) = closed s.
Proof.
  intros E. destruct w as [| | |b x|b|]; cbn [wexec] in E; unfold pick in E;
      repeat match type of E with
      | (if ?b then _ else _) = Some _ => destruct b
      | match match ?b with _ => _ end with _ => _ end = Some _ => destruct b
      | match ?b with _ => _ end = Some _ => destruct b
      end; try discriminate; injection E as <- <-; now split.
Qed.

Lemma step_closing {e} (s s' : state e) : step s s' -> code s <> [] \/ code s' = [] ->
  (cending s -> cending s') /\ ((In IShutdown (code s) -> code s = [IShutdown]) -> cpre s' -> cpre s).
Proof.
  intros St Nc. inversion St as [? Si|a R0 C0 C1 A|j Hj|Hj|j H1 H2 H3]; subst; try (split; [intros H|intros _ H]; exact H).
  - inversion Si as [junk i c ? _ Hc Mw E J|j w y s1 w1 _ Hw Hy E]; subst.
    + destruct (exec_closing _ _ _ _ _ Hc E) as (H1 & H2 & H3). split.
      * intros [H|[H|H]]; [congruence| |right; right; auto]. rewrite Hc in H. injection H as -> ->. cbn [exec] in E. injection E as <-. right. now right.
      * intros Hs [H|H].
        -- left. assert (X : In IShutdown (code s')) by (rewrite H; now left). apply H1 in X. apply Hs. rewrite Hc. now right.
        -- destruct (H3 H) as [| ->]; [now right|left]. apply Hs. rewrite Hc. now left.
    + destruct (wexec_closing _ _ _ _ _ j E) as (E1 & E2). unfold cending, cpre. rewrite E1, E2. auto.
  - split.
    + intros _. destruct Nc as [Nc|Nc]; [congruence|now left].
    + destruct Nc as [Nc|Nc]; [congruence|]. intros _ [H|H]; [congruence|]. now right.
Qed.

Lemma ord_shutdown {e} o D k (s : state e) : ord o D k s -> In IShutdown (code s) -> code s = [IShutdown].
Proof.
  intros [(m & _ & _ & _ & _ & A)|[(n & na & m & B)|(_ & n & na & _ & _ & _ & _ & _ & _ & _ & _ & _ & _ & B & _)]] H.
  - destruct A as [(_ & [A|[A|[A|[A|[A|[A|A]]]]]])|A]; destruct A as (A & _); rewrite A in *; cbn in H; intuition discriminate.
  - destruct B as (_ & _ & _ & _ & _ & _ & _ & _ & _ & _ & _ & B). unfold codesB, starting in B.
    destruct B as [(_ & Ch & Cu & _ & [(B & _)|[(_ & [B|[B|[B|[B|B]]]])|[(_ & _ & B)|[(_ & _ & B)|[(_ & B)|(_ & [B|[B|B]])]]]]])|[(_ & _ & _ & _ & [(B & _)|(B & _)])|[(_ & _ & [(_ & _ & _ & B)|(_ & [B|[B|B]])])|(_ & _ & _ & _ & _ & [(_ & [B|[B|[B|[B|B]]]])|(_ & [B|B])])]]];
      rewrite B in *; cbn in H; intuition discriminate.
  - rewrite B in H. cbn in H. intuition discriminate.
Qed.

Lemma ord_no_load {e} o D k (s : state e) b c : ord o D k s -> code s = ILoad b :: c -> closed s = false /\ rpb s <> 0.
Proof.
  intros [(m & _ & _ & _ & _ & A)|[(n & na & m & B)|(_ & n & na & _ & _ & _ & _ & _ & _ & _ & _ & _ & _ & B & _)]] H.
  - destruct A as [(_ & [A|[A|[A|[A|[A|[A|A]]]]]])|A]; destruct A as (A & _); rewrite H in A; discriminate.
  - destruct B as (_ & (Zn & _) & _ & Hn & _ & _ & _ & _ & _ & _ & _ & B). split; [|lia]. unfold codesB, starting in B.
    destruct B as [(_ & Ch & Cu & _ & [(B & _)|[(_ & [B|[B|[B|[B|B]]]])|[(_ & _ & B)|[(_ & _ & B)|[(_ & B)|(_ & [B|[B|B]])]]]]])|[(? & _ & _ & _ & [(B & _)|(B & _)])|[(_ & _ & [(_ & _ & _ & B)|(_ & [B|[B|B]])])|(_ & _ & _ & _ & _ & [(_ & [B|[B|[B|[B|B]]]])|(_ & [B|B])])]]];
      rewrite H in B; try discriminate; trivial.
  - rewrite H in B. discriminate.
Qed.

(** a column that calls initializeRowsPerBlock knows the size of the first block *)
Lemma ord_init {e} o D k (s : state e) n m c : ord o D k s -> code s = ISetRpb n m :: c -> first_block e n /\ antenna_count e n m.
Proof.
  intros [(m' & _ & _ & _ & Sk & A)|[(n' & na & m' & B)|(_ & n' & na & Fn & An & _ & _ & _ & _ & _ & _ & _ & _ & B & _)]] H.
  - destruct A as [((_ & _ & _ & Fi & _) & [A|[A|[A|[A|[A|[A|A]]]]]])|A]; destruct A as (A & A'); rewrite H in A; try discriminate. injection A as -> -> ->.
    destruct A' as (_ & _ & Z & Ns). split; [|apply (filled_count D m' (tb s)); trivial; lia]. split; [lia|]. now split.
  - exfalso. destruct B as (_ & _ & _ & _ & _ & _ & _ & _ & _ & _ & _ & B). unfold codesB, starting in B.
    destruct B as [(_ & Ch & Cu & _ & [(B & _)|[(_ & [B|[B|[B|[B|B]]]])|[(_ & _ & B)|[(_ & _ & B)|[(_ & B)|(_ & [B|[B|B]])]]]]])|[(? & _ & _ & _ & [(B & _)|(B & _)])|[(_ & _ & [(_ & _ & _ & B)|(_ & [B|[B|B]])])|(_ & _ & _ & _ & _ & [(_ & [B|[B|[B|[B|B]]]])|(_ & [B|B])])]]];
      rewrite H in B; discriminate.
  - rewrite H in B. injection B as -> -> ->. now split.
Qed.

Section SystemOrder.
Context (cfg : nat -> coldef) (T : table) (nt A : nat).
Hypotheses (NT : nt <> 0%nat) (HA : forall r, (fst (t_ants T r) < A)%nat /\ (snd (t_ants T r) < A)%nat) (A32 : N.of_nat A < 2 ^ 32).
Notation sys := (sys cfg T nt).
Notation cst := (cst cfg T nt). Notation man := (man cfg T nt). Notation active := (active cfg T nt).
Notation ncol := (ncol cfg T nt). Notation running := (running cfg T nt). Notation colenv := (colenv cfg T nt).
Notation SI := (SI cfg T nt A).

(** ** What a step of the system is for a column *)
Inductive moved (S S' : sys) (j : nat) : Prop :=
| mv_same : cst S' j = cst S j -> moved S S' j
| mv_step : step (cst S j) (cst S' j) -> code (cst S j) <> [] \/ code (cst S' j) = [] -> moved S S' j
| mv_other n m c : (active S < ncol S)%nat -> code (cst S (active S)) = ISetRpb n m :: c -> closed (cst S (active S)) = false ->
    rpb (cst S j) = 0 -> code (cst S j) = [] -> closed (cst S j) = false -> cst S' j = set_code (cst S j) (call_code (OtherInit n m)) -> moved S S' j.

Lemma code_dec {e} (s s' : state e) : code s' = code s -> code s <> [] \/ code s' = [].
Proof. intros ->. destruct (code s); [now right|now left]. Qed.

Lemma move_columns S S' : smove cfg T nt S S' -> ncol S' = ncol S.
Proof.
  intros [i x c Hi R Hc Mw P Oi E Em On|i b c col old Hn R Hc Mw Oi Lo Fo E Em On|i n m c Hi R Hc Mw Ha Oi Ei E Ea Eo|
    i n m c Hi R Hc Mw Ha Oi Ei E Em On|i n m c Hi R Hc Mw Ha E Em On|i k w y s' w' col Hn R Hw Ey E Es Em Ea Eo]; unfold System.ncol; try (now rewrite Em).
  - revert Ei. unfold initializeRowsPerBlock. pose proof (place_shapes (u32 n) (u32 (N.of_nat m)) (columns (man S)) 0) as Sh. destruct (place _ _ _ _) as (cs & t). cbn [fst] in Sh.
    destruct (_ && _)%bool; [discriminate|]. intros [= <-]. cbn. now apply shape_length.
  - rewrite Em. destruct w; trivial. destruct (encodable _ _ _ _); trivial. now destruct (write_settings (man S) b col y) as (_ & _ & _ & _ & -> & _).
Qed.

Lemma moves S0 S S' : sstart cfg T nt S0 -> SI S0 S -> SI S0 S' -> smove cfg T nt S S' -> running S' -> forall j, (j < ncol S)%nat -> moved S S' j.
Proof.
  intros St I I' H R' j Hj. pose proof (move_columns _ _ H) as Nc.
  destruct H as [i x c Hi R Hc Mw P Oi E Em On|i b c col old Hn R Hc Mw Oi Lo Fo E Em On|i n m c Hi R Hc Mw Ha Oi Ei E Ea Eo|
    i n m c Hi R Hc Mw Ha Oi Ei E Em On|i n m c Hi R Hc Mw Ha E Em On|i k w y s' w' col Hn R Hw Ey E Es Em Ea Eo];
    (destruct (Nat.eq_dec j i) as [->|Nj]; [|try (apply mv_same; now apply On)]).
  - apply mv_step; [|left; congruence]. apply step_int. apply step_main with (junk := None) (i := x) (c := c); trivial; [now apply R|exact Logic.I].
  - destruct (load_step cfg T nt A S0 S S' i b c col old I Hn E (R' i ltac:(lia))) as (junk & X & Jk).
    apply mv_step; [|left; congruence]. apply step_int. apply step_main with (junk := junk) (i := ILoad b) (c := c); trivial. now apply R.
  - apply mv_step; [|left; congruence]. apply step_int. apply step_main with (junk := None) (i := ISetRpb n m) (c := c); trivial; [now apply R|exact Logic.I].
  - pose proof (si_inv _ _ _ _ NT _ _ _ St I R Hi) as Iv. pose proof (s_sync _ _ _ _ _ _ I i Hi) as (Sy1 & Sy2).
    assert (B : closed (cst S i) = false /\ rpb (cst S i) = 0).
    { pose proof (i_phase _ _ Iv) as P. rewrite Hc in P. inversion P; try (match goal with H : maybe_store ?st ++ _ = _ |- _ => destruct st; discriminate end). split; trivial. match goal with H : base _ |- _ => apply H end. }
    destruct B as (Cl & Rz). specialize (Sy1 Ha). assert (Z : rowsPerBlock (man S) = 0) by (destruct Sy1 as (H & _); now rewrite <- H).
    subst i. apply (mv_other _ _ _ n m c); auto.
    + destruct (s_sync _ _ _ _ _ _ I j Hj) as (_ & H). destruct H as [((H & _) & _)|(m' & H & _)]; [congruence|congruence|].
      rewrite (Oi j Hj Nj) in H. discriminate.
    + destruct (closed (cst S j)) eqn:Cj; trivial. destruct (s_closed _ _ _ _ _ _ I (ex_intro _ j (conj Hj Cj)) _ Hi) as [H|[H|H]]; congruence.
  - exfalso. assert (Ri : status (cst S' i) = Running) by (apply R'; lia). rewrite E in Ri. discriminate.
  - apply mv_step; [|left; congruence]. apply step_int. apply step_main with (junk := None) (i := ISetRpb n m) (c := c); trivial; [now apply R|exact Logic.I].
  - apply mv_step.
    + rewrite Es. apply step_int. apply step_worker with (w := w) (y := y); trivial. now apply R.
    + apply code_dec. rewrite Es. now apply (wexec_closing _ _ _ _ _ k E).
  - apply mv_step; rewrite (Eo j Nj); [|now apply code_dec]. apply step_bump; trivial.
    + rewrite (s_nblk _ _ _ _ _ _ I j Hj), Em. destruct w; try reflexivity. destruct (encodable _ _ _ _); [|reflexivity].
      destruct (write_settings (man S) b col y) as (_ & _ & _ & _ & _ & ->). lia.
    + apply (s_small _ _ _ _ _ _ I').
    + apply (l_mgr _ _ (s_low _ _ _ _ _ _ I j Hj)).
Qed.

Lemma wakes S S' : swake cfg T nt S S' -> forall j, (j < ncol S)%nat -> moved S S' j.
Proof.
  intros [i k Hi Hw E Em On|i Hi Hm E Em On] j Hj; (destruct (Nat.eq_dec j i) as [->|Nj]; [|apply mv_same; now apply On]); apply mv_step; rewrite E.
  - now apply step_spurious.
  - now apply code_dec.
  - now apply step_spurious_main.
  - now apply code_dec.
Qed.

(** ** The invariant *)
Context (m0 : stman) (D : forall i, N -> list (data (colenv i))) (K : N).
Hypotheses (HD : forall i r, (nSamp (colenv i) <= length (D i r))%nat) (New : nBlocksInFile m0 = 0 /\ rowsPerBlock m0 = 0 /\ antennaCount m0 < 2 ^ 32 /\ described cfg m0).
Notation S0 := (snew cfg T nt m0).

Lemma Sm : sstart cfg T nt S0.
Proof. destruct New as (H1 & H2 & H3 & H4). now constructor. Qed.

Definition table_block (n : N) (na : nat) : Prop := forall i, first_block (colenv i) n /\ antenna_count (colenv i) n na.

(** how the manager came to be *)
Definition history (S : sys) : Prop :=
  (rowsPerBlock (man S) = 0 /\ man S = m0) \/
  exists n na m1 ws, table_block n na /\ n < 2 ^ 32 /\ (na <= A)%nat /\ initializeRowsPerBlock m0 n (N.of_nat na) true = Ok m1 /\ man S = writes m1 ws /\
    Forall (fun x => In (snd (fst x)) (columns m1) /\ len (snd x) = co_blockSize (snd (fst x)) /\ snd x <> []) ws /\
    (forall i col b y, nth_error (columns m1) i = Some col -> file (cst S i) b = Some y -> exists d, In (b, col, d) ws) /\
    (forall b col d, In (b, col, d) ws -> exists i, nth_error (columns m1) i = Some col /\ file (cst S i) b <> None).

Definition finished (ks : nat -> N) (S : sys) : Prop := forall j, (j < ncol S)%nat -> ks j = K /\ cending (cst S j).

Record SO (ks : nat -> N) (S : sys) : Prop := {
  o_si : SI S0 S;
  o_order : forall j, (j < ncol S)%nat -> in_order True (D j) (ks j) (cst S j);
  o_le : forall j, (j < ncol S)%nat -> ks j <= K;
  o_among : forall j, (j < ncol S)%nat -> among K (ks j) (cst S j);
  o_end : (exists i, (i < ncol S)%nat /\ cpre (cst S i)) -> finished ks S;
  o_blocks : rowsPerBlock (man S) <> 0 -> nBlocksInFile (man S) * rowsPerBlock (man S) <= K \/ finished ks S;
  o_hist : history S }.

Lemma so_inv ks S j : SO ks S -> running S -> (j < ncol S)%nat -> inv (fun _ => None) (cst S j).
Proof. intros I R Hj. exact (si_inv _ _ _ _ NT _ _ _ Sm (o_si _ _ I) R Hj). Qed.

Lemma so_ord ks S j : SO ks S -> running S -> (j < ncol S)%nat -> ord True (D j) (ks j) (cst S j).
Proof. intros I R Hj. apply ord_reach; auto. now apply (o_order _ _ I). Qed.

(** what moves leave *)
Lemma so_moved ks S S' : SO ks S -> running S -> running S' -> SI S0 S' -> ncol S' = ncol S -> (forall j, (j < ncol S)%nat -> moved S S' j) ->
  history S' -> (rowsPerBlock (man S') <> 0 -> (finished ks S -> finished ks S') -> nBlocksInFile (man S') * rowsPerBlock (man S') <= K \/ finished ks S') -> SO ks S'.
Proof.
  intros I R R' I' Nc Mv Hh Hb.
  assert (Fn : finished ks S -> finished ks S').
  { intros F j Hj. rewrite Nc in Hj. destruct (F j Hj) as (F1 & F2). split; trivial. destruct (Mv j Hj) as [E|St Cd|n m c Ha Hc Cl Rz Cj Clj E].
    - now rewrite E.
    - now apply (step_closing _ _ St Cd).
    - exfalso. destruct (F _ Ha) as (_ & [H|[H|H]]); congruence. }
  assert (Pre : (exists i, (i < ncol S')%nat /\ cpre (cst S' i)) -> exists i, (i < ncol S)%nat /\ cpre (cst S i)).
  { intros (i & Hi & P). rewrite Nc in Hi. exists i. split; trivial. destruct (Mv i Hi) as [E|St Cd|n m c Ha Hc Cl Rz Cj Clj E].
    - now rewrite <- E.
    - apply (step_closing _ _ St Cd); trivial. apply (ord_shutdown True (D i) (ks i)). now apply so_ord.
    - rewrite E in P. destruct P as [P|P]; [discriminate|]. now right. }
  constructor; rewrite ?Nc; trivial.
  - intros j Hj. pose proof (o_order _ _ I j Hj) as Ho. destruct (Mv j Hj) as [E|St Cd|n m c Ha Hc Cl Rz Cj Clj E].
    + now rewrite E.
    + eapply io_step; eauto.
    + rewrite E. destruct (ord_init True (D (active S)) (ks (active S)) _ n m c (so_ord _ _ _ I R Ha) Hc) as (Fb & An).
      apply (io_other True (D j) (ks j) n m); trivial; [now apply R| |].
      * destruct (block_size_known True (D j) (HD j) (ks j) n m _ NT Ho (R j Hj) Cj Fb An) as [(_ & H)|(H & _)]; trivial. destruct Fb. lia.
      * apply (l_set _ _ (s_low _ _ _ _ _ _ (o_si _ _ I) _ Ha) n m). rewrite Hc. now left.
  - exact (o_le _ _ I).
  - intros j Hj. pose proof (o_among _ _ I j Hj) as Wj. destruct (Mv j Hj) as [E|St Cd|n m c Ha Hc Cl Rz Cj Clj E].
    + now rewrite E.
    + apply (among_step True (D j) (HD j) K (ks j) (cst S j)); trivial.
      * now apply so_ord.
      * now apply (so_inv ks).
      * now apply (o_le _ _ I).
      * intros Cl. apply (o_end _ _ I); trivial. exists j. split; trivial. now right.
      * intros b c Hc. destruct (ord_no_load _ _ _ _ _ _ (so_ord _ _ _ I R Hj) Hc) as (Cl & Rz).
        assert (Ag : agree cfg T nt S j).
        { destruct (s_sync _ _ _ _ _ _ (o_si _ _ I) j Hj) as (S1 & S2). destruct (Nat.eq_dec j (active S)) as [H|H]; [auto|]. destruct (S2 H) as [(G & _)|(m & _ & _ & G)]; [trivial|easy]. }
        destruct Ag as (Ag & _). rewrite Ag, (s_nblk _ _ _ _ _ _ (o_si _ _ I) j Hj) in *. destruct (o_blocks _ _ I Rz) as [H|F]; [exact H|].
        exfalso. destruct (F j Hj) as (_ & [H|[H|H]]); congruence.
      * apply R'. lia.
    + rewrite E. now apply (among_ext K (ks j) (cst S j)).
  - intros P. apply Fn, (o_end _ _ I), Pre. rewrite Nc. exact P.
  - intros Z. now apply Hb.
Qed.

Lemma writes_settings ws : forall m, rowsPerBlock (writes m ws) = rowsPerBlock m /\ antennaCount (writes m ws) = antennaCount m /\ columns (writes m ws) = columns m.
Proof.
  induction ws as [|((b, c), d) ws IH]; intros m; [now repeat split|]. change (writes m ((b, c, d) :: ws)) with (writes (writeCompressedData m b c d) ws). destruct (IH (writeCompressedData m b c d)) as (-> & -> & ->).
  destruct (write_settings m b c d) as (H1 & H2 & _ & _ & H3 & _). now repeat split.
Qed.

Lemma hist_same S S' : man S' = man S -> (forall j, (j < ncol S)%nat -> file (cst S' j) = file (cst S j)) -> history S -> history S'.
Proof.
  intros Em Ef [(H1 & H2)|(n & na & m1 & ws & H1 & H2 & H3 & H4 & H5 & H6 & H7 & H8)]; [left; now rewrite Em|right].
  exists n, na, m1, ws. rewrite Em. repeat (split; [assumption|]).
  assert (X : forall i col, nth_error (columns m1) i = Some col -> (i < ncol S)%nat).
  { intros i col Hi. unfold System.ncol. rewrite H5. destruct (writes_settings ws m1) as (_ & _ & ->). apply nth_error_Some. congruence. }
  split.
  - intros i col b y Hi. rewrite Ef; eauto.
  - intros b col d Hd. destruct (H8 b col d Hd) as (i & Hi & Hf). exists i. rewrite Ef; eauto.
Qed.

Lemma hist_init S n na m1 ws : table_block n na -> n < 2 ^ 32 -> (na <= A)%nat -> initializeRowsPerBlock m0 n (N.of_nat na) true = Ok m1 -> man S = writes m1 ws ->
  rowsPerBlock (man S) = n /\ antennaCount (man S) = N.of_nat na /\ n <> 0.
Proof.
  intros H1 H2 H3 H4 H5. assert (Ln : N.of_nat na < 2 ^ 32) by lia. destruct (init_manager _ _ _ _ H2 Ln H4) as (M1 & M2 & _). destruct (writes_settings ws m1) as (E1 & E2 & _).
  rewrite H5, E1, E2, M1, M2. repeat split; trivial. destruct (H1 0%nat) as ((Z & _) & _). lia.
Qed.

Lemma load_file i m col old (s : state (colenv i)) b : file (sys_load cfg T nt m i col old s b) = file s.
Proof.
  unfold sys_load. cbv zeta. destruct (cached _ _); (destruct (_ <? _); [|reflexivity]); (destruct (readCompressedData _ _ _ _); [|reflexivity..]);
  (destruct (loadBlock _ _ _ _ _ _ _); reflexivity).
Qed.

Lemma so_moves ks S S' : SO ks S -> smove cfg T nt S S' -> running S' -> fits32 (man S') -> SO ks S'.
Proof.
  intros I H R' Ft. pose proof (o_si _ _ I) as Is. assert (R : running S) by (apply (sstep_running _ _ _ _ _ (ss_move _ _ _ _ _ H) R')).
  pose proof (si_move _ _ _ _ NT HA A32 _ _ _ Sm (start_described _ _ _ _ Sm) Is H R' Ft) as I'. pose proof (move_columns _ _ H) as Nc.
  pose proof (moves _ _ _ Sm Is I' H R') as Mv.
  assert (Same : man S' = man S -> (forall j, (j < ncol S)%nat -> file (cst S' j) = file (cst S j)) -> SO ks S').
  { intros Em Ef. apply (so_moved ks S); trivial; [now apply (hist_same S S' Em Ef), (o_hist _ _ I)|]. rewrite Em. intros Z F. destruct (o_blocks _ _ I Z); auto. }
  destruct H as [i x c Hi _ Hc Mw P Oi E Em On|i b c col old Hn _ Hc Mw Oi Lo Fo E Em On|i n m c Hi _ Hc Mw Ha Oi Ei E Ea Eo|
    i n m c Hi _ Hc Mw Ha Oi Ei E Em On|i n m c Hi _ Hc Mw Ha E Em On|i k w y s' w' col Hn _ Hw Ey E Es Em Ea Eo].
  - apply Same; trivial. intros j Hj. destruct (Nat.eq_dec j i) as [->|Nj]; [apply (exec_plain _ _ _ _ P E)|now rewrite (proj2 On)].
  - apply Same; trivial. intros j Hj. destruct (Nat.eq_dec j i) as [->|Nj]; [now rewrite E, load_file|now rewrite (proj2 On)].
  - pose proof (so_inv ks S i I R Hi) as Iv.
    assert (Rz : rpb (cst S i) = 0).
    { pose proof (i_phase _ _ Iv) as P. rewrite Hc in P. inversion P; try (match goal with H : maybe_store ?st ++ _ = _ |- _ => destruct st; discriminate end). assumption. }
    assert (Z : rowsPerBlock (man S) = 0) by (destruct (s_sync _ _ _ _ _ _ Is i Hi) as (Sy & _); destruct (Sy Ha) as (H & _); now rewrite <- H).
    destruct (l_set _ _ (s_low _ _ _ _ _ _ Is i Hi) n m) as (Ln & Lm); [rewrite Hc; now left|].
    destruct (ord_init True (D i) (ks i) _ n m c (so_ord _ _ _ I R Hi) Hc) as (Fb & An).
    pose proof (s_none _ _ _ _ _ _ Is Z) as Nz. assert (Lm' : N.of_nat m < 2 ^ 32) by lia. destruct (init_manager _ _ _ _ Ln Lm' Ei) as (M1 & M2 & M3 & M4 & M5).
    apply (so_moved ks S); trivial.
    + right. exists n, m, (man S'), []. split; [intros j; exact (conj Fb An)|]. split; trivial. split; trivial.
      split; [|split; [reflexivity|split; [constructor|split; [|intros ? ? ? []]]]].
      * destruct (o_hist _ _ I) as [(_ & <-)|(n' & na' & m1 & ws & H1 & H2 & H3 & H4 & H5 & _)]; trivial.
        destruct (hist_init S n' na' m1 ws H1 H2 H3 H4 H5) as (Q & _ & Q'). congruence.
      * intros j col b y Hj Hf. destruct (s_file _ _ _ _ _ _ I' j col b y Hj Hf) as (Q & _). rewrite M3 in Q. lia.
    + intros _ _. left. rewrite M3, Nz. lia.
  - exfalso. assert (Ri : status (cst S' i) = Running) by (apply R'; lia). rewrite E in Ri. discriminate.
  - apply Same; trivial. intros j Hj. destruct (Nat.eq_dec j i) as [->|Nj]; [apply (exec_set _ _ _ _ _ _ E)|now rewrite (proj2 On)].
  - assert (Hi : (i < ncol S)%nat) by (unfold System.ncol; apply nth_error_Some; now rewrite Hn).
    pose proof (so_inv ks S i I R Hi) as Iv.
    destruct (wexec_fields _ _ _ _ _ k E) as (_ & _ & _ & _ & _ & _ & _ & F). cbv zeta in F. rewrite <- Es in F. specialize (F (R i Hi) (R' i ltac:(lia))).
    assert (Nw : (forall b x, w <> WPicked b x) -> SO ks S').
    { intros Nw. apply Same.
      - rewrite Em. destruct w; trivial. now destruct (Nw b x).
      - intros j Hj. destruct (Nat.eq_dec j i) as [->|Nj]; [destruct w; try apply F; now destruct (Nw b x)|now rewrite (Eo j Nj)]. }
    destruct w as [| | |b x|b|]; try (apply Nw; discriminate). destruct F as (F1 & F2 & F3). rewrite F1 in Em. clear Nw.
    specialize (Ey b x eq_refl F1). assert (Hl : last (cst S i) b = Some x) by (eapply (i_last _ _ Iv), (i_picked _ _ Iv), nth_error_In; eauto).
    destruct (l_last _ _ (s_low _ _ _ _ _ _ Is i Hi) b x Hl) as (Hb & Hx). assert (Rn : rpb (cst S i) <> 0).
    { pose proof (proj1 Ey) as L. cbn in L. destruct x; [easy|]. cbn in L. lia. }
    assert (Ag : agree cfg T nt S i).
    { destruct (s_sync _ _ _ _ _ _ Is i Hi) as (S1 & S2). destruct (Nat.eq_dec i (active S)) as [H|H]; [auto|]. destruct (S2 H) as [(G & _)|(m & _ & _ & G)]; [trivial|easy]. }
    destruct Ag as (Ag1 & Ag2). specialize (Ag2 Rn). assert (Rm : rowsPerBlock (man S) <> 0) by congruence.
    destruct (write_settings (man S) b col y) as (W1 & W2 & _ & _ & W5 & W6). rewrite <- Em in W1, W2, W5, W6.
    apply (so_moved ks S); trivial.
    + destruct (o_hist _ _ I) as [(Z & _)|(n & na & m1 & ws & H1 & H2 & H3 & H4 & H5 & H6 & H7 & H8)]; [easy|]. right. exists n, na, m1, (ws ++ [(b, col, y)]).
      repeat (split; [assumption|]). destruct (writes_settings ws m1) as (_ & _ & Ec). rewrite <- H5 in Ec.
      split; [|split; [|split]].
      * unfold writes. rewrite fold_left_app. fold (writes m1 ws). rewrite <- H5. exact Em.
      * apply Forall_app. split; trivial. repeat constructor; cbn.
        -- rewrite <- Ec. eapply nth_error_In; eauto.
        -- apply (s_file _ _ _ _ _ _ I' i col b y); [now rewrite W5|]. rewrite F2. unfold upd_map. now rewrite N.eqb_refl.
        -- assert (L : len y = co_blockSize col) by (apply (s_file _ _ _ _ _ _ I' i col b y); [now rewrite W5|rewrite F2; unfold upd_map; now rewrite N.eqb_refl]).
           intros ->. destruct (si_described _ _ _ _ _ _ _ _ Is (start_described _ _ _ _ Sm) Hn) as (Ds & Dp & Dc).
           rewrite (placed_size _ (s_placed _ _ _ _ _ _ Is) Rm i col Hn) in L. pose proof (size_pos _ _ (rowsPerBlock (man S)) (antennaCount (man S)) Ds Dp Dc Rm). cbn in L. lia.
      * intros j cj b' z Hj Hf. destruct (Nat.eq_dec j i) as [->|Nj].
        -- rewrite F2 in Hf. rewrite <- Ec, Hn in Hj. injection Hj as <-. unfold upd_map in Hf. destruct (N.eqb_spec b' b) as [->|Nb].
           ++ exists y. apply in_or_app. right. now left.
           ++ destruct (H7 i col b' z) as (d & Hd); [now rewrite <- Ec|trivial|]. exists d. apply in_or_app. now left.
        -- rewrite (Eo j Nj) in Hf. destruct (H7 j cj b' z Hj Hf) as (d & Hd). exists d. apply in_or_app. now left.
      * intros b' cj d Hd. apply in_app_or in Hd as [Hd|[[= <- <- <-]|[]]].
        -- destruct (H8 b' cj d Hd) as (j & Hj & Hf). exists j. split; trivial. destruct (Nat.eq_dec j i) as [->|Nj].
           ++ rewrite F2. unfold upd_map. now destruct (N.eqb_spec b' b).
           ++ now rewrite (Eo j Nj).
        -- exists i. split; [now rewrite <- Ec|]. rewrite F2. unfold upd_map. now rewrite N.eqb_refl.
    + intros _ Fn. destruct (closed (cst S i)) eqn:Cl.
      * right. apply Fn, (o_end _ _ I). exists i. split; trivial. now right.
      * destruct (o_blocks _ _ I Rm) as [Hk|Hf]; [left|auto]. rewrite W1, W6. destruct (o_among _ _ I i Hi Rn) as (_ & Hm). destruct (Hm b x Hl) as (_ & Q). specialize (Q Cl).
        pose proof (o_le _ _ I i Hi) as Lk. rewrite Ag1 in Q. rewrite <- N.mul_max_distr_r. apply N.max_lub; lia.
Qed.

Lemma so_start : SO (fun _ => 0) S0.
Proof.
  destruct New as (Hn & Hr & _). constructor.
  - apply (start_SI cfg T nt A); trivial; [exact Sm|]. intros Z. now destruct Z.
  - intros j _. constructor.
  - intros j _. lia.
  - intros j _. intros Z. now destruct Z.
  - intros (i & _ & [H|H]); discriminate.
  - intros Z. now destruct Z.
  - left. now split.
Qed.

Lemma so_put_call ks S S' i : SO ks S -> ks i < K -> scall cfg T nt S S' i (Put (ks i) (D i (ks i))) ->
  SO (fun j => if (j =? i)%nat then ks i + 1 else ks j) S'.
Proof.
  intros I Lk Sc. pose proof (si_call _ _ _ _ _ _ _ _ _ (o_si _ _ I) Sc) as I'. destruct Sc as (Hi & R & Id & Cl & Ua & Op & E & Em & Ea & Eo). specialize (Op ltac:(discriminate)).
  assert (Nc : ncol S' = ncol S) by (unfold System.ncol; now rewrite Em).
  assert (Cj : forall j, (j = i /\ (j =? i)%nat = true) \/ (cst S' j = cst S j /\ (j =? i)%nat = false)) by (intros j; destruct (Nat.eqb_spec j i); auto).
  constructor; rewrite ?Nc; trivial.
  - intros j Hj. destruct (Cj j) as [(-> & ->)|(-> & ->)]; [|now apply (o_order _ _ I)]. rewrite E. apply io_put; auto. now apply (o_order _ _ I).
  - intros j Hj. destruct (Cj j) as [(-> & ->)|(_ & ->)]; [lia|now apply (o_le _ _ I)].
  - intros j Hj. destruct (Cj j) as [(-> & ->)|(-> & ->)]; [|now apply (o_among _ _ I)]. rewrite E. apply (among_more K (ks i)); [|lia]. 
    apply (among_ext K (ks i) (cst S i)); trivial. now apply (o_among _ _ I).
  - intros (j & Hj & P). exfalso. destruct (Cj j) as [(-> & _)|(Ej & _)].
    + rewrite E in P. destruct P as [P|P]; [discriminate|]. cbn in P. rewrite (Op i Hi) in P. discriminate.
    + rewrite Ej in P. destruct P as [P|P]; [rewrite Id in P by trivial; discriminate|]. rewrite (Op j Hj) in P. discriminate.
  - rewrite Em. intros Z. left. destruct (o_blocks _ _ I Z) as [H|H]; trivial. destruct (H i Hi). lia.
  - apply (hist_same S S' Em); [|apply (o_hist _ _ I)]. intros j Hj. destruct (Cj j) as [(-> & _)|(-> & _)]; [now rewrite E|trivial].
Qed.

Lemma so_close_call ks S S' i : SO ks S -> (forall j, (j < ncol S)%nat -> ks j = K) -> scall cfg T nt S S' i Shutdown -> SO ks S'.
Proof.
  intros I Lk Sc. pose proof (si_call _ _ _ _ _ _ _ _ _ (o_si _ _ I) Sc) as I'. destruct Sc as (Hi & R & Id & Cl & Ua & Op & E & Em & Ea & Eo). clear Op.
  assert (Nc : ncol S' = ncol S) by (unfold System.ncol; now rewrite Em).
  assert (Cj : forall j, j = i \/ cst S' j = cst S j) by (intros j; destruct (Nat.eq_dec j i); auto).
  assert (F : finished ks S').
  { intros j Hj. rewrite Nc in Hj. split; [auto|]. destruct (Cj j) as [->|Ej]; [rewrite E; right; now left|]. rewrite Ej. left. auto. }
  constructor; rewrite ?Nc; trivial.
  - intros j Hj. destruct (Cj j) as [->|Ej]; [|rewrite Ej; now apply (o_order _ _ I)]. rewrite E. apply io_close; auto. now apply (o_order _ _ I).
  - exact (o_le _ _ I).
  - intros j Hj. destruct (Cj j) as [->|Ej]; [|rewrite Ej; now apply (o_among _ _ I)]. rewrite E. apply (among_ext K (ks i) (cst S i)); trivial. now apply (o_among _ _ I).
  - intros _. now right.
  - apply (hist_same S S' Em); [|apply (o_hist _ _ I)]. intros j Hj. destruct (Cj j) as [->|Ej]; [now rewrite E|now rewrite Ej].
Qed.

Lemma so_wakes ks S S' : SO ks S -> swake cfg T nt S S' -> running S' -> SO ks S'.
Proof.
  intros I H R'. pose proof (si_wake _ _ _ _ _ _ _ (o_si _ _ I) H) as I'. pose proof (wakes _ _ H) as Mv.
  assert (R : running S) by (apply (sstep_running _ _ _ _ _ (ss_wake _ _ _ _ _ H) R')).
  assert (X : man S' = man S /\ forall j, file (cst S' j) = file (cst S j)).
  { destruct H as [i k Hi Hw E Em On|i Hi Hm E Em On]; (split; [trivial|]); intros j; (destruct (Nat.eq_dec j i) as [->|Nj]; [now rewrite E|now rewrite (proj2 On)]). }
  destruct X as (Em & Ef). apply (so_moved ks S); trivial.
  - unfold System.ncol. now rewrite Em.
  - apply (hist_same S S' Em); [auto|apply (o_hist _ _ I)].
  - rewrite Em. intros Z F. destruct (o_blocks _ _ I Z); auto.
Qed.

Lemma order_sreach ks S : sys_order cfg T nt m0 D K ks S -> sreach cfg T nt S0 S.
Proof.
  induction 1; [constructor|eapply sreach_step; eauto..].
  - eapply ss_call; eauto.
  - eapply ss_call; eauto.
  - now apply ss_move.
  - now apply ss_wake.
Qed.

Theorem so_reach ks S : sys_order cfg T nt m0 D K ks S -> running S -> fits32 (man S) -> SO ks S.
Proof.
  intros H. assert (X : small32 (man S) /\ (running S -> fits32 (man S) -> SO ks S)); [|apply X].
  induction H as [|ks S S' i H IH L Sc|ks S S' i H IH L Sc|ks S S' H IH Mv|ks S S' H IH Wk].
  - split; [exact (start_small _ _ _ _ Sm)|]. intros _ _. exact so_start.
  - destruct IH as (Sl & IH). assert (St : sstep cfg T nt S S') by (eapply ss_call; eauto). destruct (sstep_fits _ _ _ _ _ St Sl) as (Sl' & Fi). split; trivial.
    intros R F. apply (so_put_call ks S); trivial. apply IH; [exact (sstep_running _ _ _ _ _ St R)|auto].
  - destruct IH as (Sl & IH). assert (St : sstep cfg T nt S S') by (eapply ss_call; eauto). destruct (sstep_fits _ _ _ _ _ St Sl) as (Sl' & Fi). split; trivial.
    intros R F. apply (so_close_call ks S S' i); trivial. apply IH; [exact (sstep_running _ _ _ _ _ St R)|auto].
  - destruct IH as (Sl & IH). assert (St : sstep cfg T nt S S') by (now apply ss_move). destruct (sstep_fits _ _ _ _ _ St Sl) as (Sl' & Fi). split; trivial.
    intros R F. apply (so_moves ks S); trivial. apply IH; [exact (sstep_running _ _ _ _ _ St R)|auto].
  - destruct IH as (Sl & IH). assert (St : sstep cfg T nt S S') by (now apply ss_wake). destruct (sstep_fits _ _ _ _ _ St Sl) as (Sl' & Fi). split; trivial.
    intros R F. apply (so_wakes ks S); trivial. apply IH; [exact (sstep_running _ _ _ _ _ St R)|auto].
Qed.
End SystemOrder.
