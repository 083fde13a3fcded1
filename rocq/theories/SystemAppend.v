(** Putting further rows in a stored table, all columns. *)
From Verif Require Import Base BaseLemmas Floats TimeBlockBuffer TbbSpec BitStream BytePacker File FileProofs StMan StManSpec HeaderProofs StManProofs.
From Verif Require Import StochasticEncoder TimeBlockEncoders TbeSpec Weights WeightSpec Block BlockSpec Column ColumnSpec ColumnProofs ColumnInv ColumnReach ColumnTerm ColumnData ColumnOrder ColumnWhole ColumnAmong ColumnRead
  StoredColumn StoredProofs System SystemSpec UpdateSpec AppendSpec SessionSpec SystemLow SystemCols SystemInv SystemOrder SystemEnd SystemRead SystemTotal SystemGood SystemWrite SystemTerm SystemPuts SystemFinal SystemAll UpdateBlock ColumnUpdate SystemHeld SystemUpdate ColumnSession ColumnAppend.
From Coq Require Import ZifyNat ZifyN Eqdep_dec.
Local Open Scope N_scope.
Local Arguments System.colenv : simpl never.

(** what is kept of a block, possibly a short one *)
Lemma block_kept_short T nt c L n na b (x : tbb (sample (codec_of c))) y : let E := stored_column (codec_of c) (af_of c) (bits_of c) (nPol_of c * nChan_of c) T nt in
  coldef_ok c L -> (0 < nPol_of c)%nat -> (0 < nChan_of c)%nat -> n <> 0 -> n <= 2 ^ 32 ->
  (length x <= N.to_nat n)%nat -> x <> [] -> (forall i row, nth_error x i = Some row -> (antenna1 row, antenna2 row) = t_ants T (b * n + N.of_nat i)) ->
  (forall row, In row x -> length (visibilities row) = (nPol_of c * nChan_of c)%nat /\ row_ok c (visibilities row)) ->
  (af_of c = true -> forall r, (fst (t_ants T r) < na)%nat /\ (snd (t_ants T r) < na)%nat) -> enc E n na x y ->
  forall r row, nth_error x r = Some row -> exists out, nth_error (Column.dec E n na b y) r = Some out /\ kept c L na x (floats (nMetaFloats (codec_of c) (N.to_nat n) na) y) row out.
Proof.
  intros E Co Hp Hc Zn N32 Lx Nx Ax Hx Ha Ey.
  set (D := fun r : N => match nth_error x (N.to_nat (r mod n)) with Some row => visibilities row | None => @nil (data E) end).
  assert (Px : (0 < length x)%nat) by (destruct x; [easy|cbn; lia]). set (k := b * n + N.of_nat (length x)).
  assert (Xb : exact_block E D k n b x).
  { split; [|unfold k; clear - Lx; subst E; cbn [data stored_column] in *; lia]. split; [clear - Lx; subst E; cbn [data stored_column] in *; lia|]. split.
    - intros i row Hi. split; [now apply Ax|]. apply Hx. eapply nth_error_In; eauto.
    - intros r Hr Hb. assert (Hq : (N.to_nat (r mod n) < length x)%nat).
      { pose proof (N.div_mod r n Zn) as Q. rewrite Hb in Q. unfold k in Hr. revert Hr Q. clear. generalize (r mod n). intros w Hr Q. lia. }
      destruct (nth_error x (N.to_nat (r mod n))) as [row|] eqn:Er; [|apply nth_error_None in Er; clear - Er Hq; lia].
      exists row. split; [exact Er|]. unfold D. rewrite Er. symmetry. apply firstn_all2. destruct (Hx row (nth_error_In _ _ Er)) as (Q & _). cbn [nSamp stored_column]. eapply Nat.eq_le_incl. exact Q. }
  assert (Da : data_ok c D).
  { clear - Hx. unfold D. clear D. revert E x Hx. destruct c as [| | |p ch bi]; intros E x Hx; try exact I. cbn [data_ok]. intros r. destruct (nth_error x _) as [row|] eqn:Er; [|constructor]. apply (Hx row). eapply nth_error_In; eauto. }
  destruct (kept_rows T nt c L D k n na b x y Co Da Hp Hc Zn N32 ltac:(unfold k; clear - Px; lia) Ha Xb Ey) as (rows & El & K).
  intros r row Hr. destruct (K r row Hr) as (out & Ho & Hk). exists out. split; trivial. subst E. cbn [Column.dec stored_column]. rewrite El by apply repeat_length. exact Ho.
Qed.

Section append.
Context (cfg : nat -> coldef) (T : table) (nt A : nat).
Hypotheses (NT : nt <> 0%nat) (HA : forall r, (fst (t_ants T r) < A)%nat /\ (snd (t_ants T r) < A)%nat) (A32 : N.of_nat A < 2 ^ 32).
Context (m0 : stman) (K : N) (L : nat -> f32) (n : N) (na : nat).
Hypotheses (New : new_table cfg m0) (Co : forall i, coldef_ok (cfg i) (L i)) (Zn : 0 < n) (N32 : n < 2 ^ 32) (Na32 : N.of_nat na < 2 ^ 32)
  (Tot : total n (N.of_nat na) (columns m0) < 2 ^ 32)
  (Af : forall i, (i < length (columns m0))%nat -> af_of (cfg i) = true -> forall r, (fst (t_ants T r) < na)%nat /\ (snd (t_ants T r) < na)%nat).
Notation sys := (sys cfg T nt).
Notation cst := (cst cfg T nt). Notation man := (man cfg T nt). Notation active := (active cfg T nt).
Notation ncol := (ncol cfg T nt). Notation running := (running cfg T nt). Notation colenv := (colenv cfg T nt).
Notation held := (held cfg T nt m0).
Notation put_ok := (put_ok cfg T nt).
Context (m : stman) (K2 : N) (D2 : forall i, N -> list (data (colenv i))).
Hypotheses (Hm : held K n na m) (K12 : K < K2) (Pd : forall i r, K <= r < K2 -> put_ok i (D2 i r)).
Notation nb := (nBlocksInFile m).
Notation dsk := (disk_of cfg T nt m).
Notation session := (sys_appending cfg T nt K K2 m D2).
Notation apps := (fun j => appending (e := colenv j) (dsk j) nb n na K K2 (D2 j)).
Notation ainvs := (fun j => ainv (e := colenv j) (dsk j) nb n na K K2 (D2 j)).

(** the blocks written, from the creation of the table *)
Definition history (S : sys) : Prop := exists m1 ws, initializeRowsPerBlock m0 n (N.of_nat na) true = Ok m1 /\
  Forall (fun x => In (snd (fst x)) (columns m1) /\ len (snd x) = co_blockSize (snd (fst x)) /\ snd x <> []) ws /\
  fil (man S) = fil (writes m1 ws) /\ nBlocksInFile (man S) = nBlocksInFile (writes m1 ws) /\
  columns (man S) = columns m1 /\ hdrSize (man S) = hdrSize m1 /\ blockSize (man S) = blockSize m1 /\
  (exists w k d, Datatypes.S k = length (columns m1) /\ nth_error (columns m1) k = Some w /\ In (nb - 1, w, d) ws) /\
  (forall i col b y, nth_error (columns m1) i = Some col -> nb <= b -> file (cst S i) b = Some y -> exists d, In (b, col, d) ws).

Record UA (ks : nat -> N) (S : sys) : Prop := {
  ua_run : running S;
  ua_rows : rowsPerBlock (man S) = n;
  ua_ants : antennaCount (man S) = N.of_nat na;
  ua_cols : columns (man S) = columns m;
  ua_bytes : bytes8 (fil (man S));
  ua_more : nb <= nBlocksInFile (man S);
  ua_bound : forall b, b < nBlocksInFile (man S) -> b * n < K2;
  ua_full : (forall j, (j < ncol S)%nat -> closed (cst S j) = false) -> forall b, nb <= b -> b < nBlocksInFile (man S) -> (b + 1) * n <= K2;
  ua_hist : history S;
  ua_col : forall j, (j < ncol S)%nat -> apps j (ks j) (cst S j) }.

Lemma d2_length i r : K <= r < K2 -> (nSamp (colenv i) <= length (D2 i r))%nat.
Proof. intros H. exact (proj1 (Pd i r H)). Qed.

Lemma blocks_k b : b < nb <-> b * n < K.
Proof. apply (hd_blocks _ _ _ _ _ _ _ _ Hm). Qed.

Let Zn' : n <> 0. Proof. lia. Qed.
Let Nb64 := hd_small _ _ _ _ _ _ _ _ Hm.
Lemma dsk_rd i : (i < length (columns m))%nat -> readable (dsk i) n na (fun r => r < K).
Proof. exact (dsk_readable cfg T nt A NT HA A32 m0 K L n na Co Zn N32 Na32 Tot Af m (fun r => r < K) Hm (fun r H => H) i). Qed.

Lemma cols_af i : (i < length (columns m))%nat -> af (colenv i) = true -> forall r, (fst (ants (colenv i) r) < na)%nat /\ (snd (ants (colenv i) r) < na)%nat.
Proof. intros Hi. apply (Af i). destruct (held_shape cfg T nt m0 K n na New Zn N32 Na32 Tot m Hm) as (_ & _ & _ & Q & _); trivial. lia. Qed.

Lemma ua_index ks S i : UA ks S -> (i < ncol S)%nat -> (i < length (columns m))%nat.
Proof. intros U Hi. unfold System.ncol in Hi. now rewrite (ua_cols _ _ U) in Hi. Qed.

Lemma ua_ainv ks S i : UA ks S -> (i < ncol S)%nat -> apps i (ks i) (cst S i) /\ ainvs i (ks i) (cst S i) /\ inv (dsk i) (cst S i).
Proof.
  intros U Hi. pose proof (ua_col _ _ U i Hi) as Hu. pose proof (ua_index ks S i U Hi) as Hi'. split; trivial.
  pose proof (ainv_appending (dsk i) nb n na K K2 (D2 i) Zn' Nb64 (disk_within cfg T nt m i) blocks_k (dsk_rd i Hi') K12 (d2_length i) NT (cols_af i Hi') (ks i) (cst S i) Hu (ua_run _ _ U i Hi)) as Ui.
  split; trivial. refine (inv_reach (e := colenv i) _ _ NT _ (appending_reach _ _ _ _ _ _ _ _ _ Hu) (ua_run _ _ U i Hi)).
  apply (ColumnUpdate.S0 (dsk i) nb n na); [lia|exact Nb64|apply disk_within].
Qed.

Lemma ua_fits ks S : UA ks S -> fits32 (man S).
Proof. intros U _. rewrite (ua_rows _ _ U), (ua_ants _ _ U), (ua_cols _ _ U). pose proof (held_fits cfg T nt m0 K n na New Zn N32 Na32 Tot m Hm) as F. unfold fits32 in F. rewrite (hd_rows _ _ _ _ _ _ _ _ Hm), (hd_ants _ _ _ _ _ _ _ _ Hm) in F. now apply F. Qed.

Lemma session_sreach ks S : session ks S -> sreach cfg T nt (sopen cfg T nt m) S.
Proof.
  induction 1; [constructor|eapply sreach_step; eauto..]; try (eapply ss_call; eauto; fail).
  - now apply ss_move.
  - now apply ss_wake.
Qed.

Let St0 : sstart cfg T nt (sopen cfg T nt m) := held_start cfg T nt m0 K n na New Zn N32 Na32 Tot m Hm.

Lemma ua_si ks S : session ks S -> UA ks S -> SI cfg T nt A (sopen cfg T nt m) S.
Proof. intros H U. apply (si_reach cfg T nt A NT HA A32); trivial; [eapply session_sreach; eauto|apply U|now apply (ua_fits ks)]. Qed.

(** the rows of a block that is encoded *)
Lemma block_rows i mm b x : (b + 1) * n <= mm \/ mm = K2 -> mm <= K2 -> ab (e := colenv i) (dsk i) nb n na K K2 (D2 i) mm b x ->
  forall row, In row x -> length (visibilities row) = (nPol_of (cfg i) * nChan_of (cfg i))%nat /\ row_ok (cfg i) (visibilities row).
Proof.
  intros E Lm Ab row Hin. apply In_nth_error in Hin as (q & Hq). destruct (ab_rows (dsk i) nb n na K K2 (D2 i) Zn' Nb64 K12 NT mm b x E Lm Ab q row Hq) as (_ & Q2 & _ & Q3). split; [exact Q2|].
  assert (Sr : stored_row (e := colenv i) (dsk i) n na (b * n + N.of_nat q) = Some (visibilities row) -> row_ok (cfg i) (visibilities row)).
  { unfold stored_row. destruct (dsk i _) as [y|] eqn:Ey; [|discriminate]. intros H. destruct (dsk_sound cfg T nt m0 K n na m Hm i _ y Ey ((b * n + N.of_nat q) / n)) as (_ & F).
    rewrite Forall_forall in F. apply F. eapply nth_error_In; eauto. }
  destruct Q3 as [(Q3 & Q4)|(_ & _ & Q4)]; [|now apply Sr]. unfold new_row in Q4. destruct (N.ltb_spec (b * n + N.of_nat q) K) as [Lk|Lk]; [now apply Sr|].
  rewrite Q4. apply row_ok_firstn. apply Pd. lia.
Qed.

Lemma block_some i mm b x : b * n < mm -> ab (e := colenv i) (dsk i) nb n na K K2 (D2 i) mm b x -> x <> [].
Proof.
  intros Lb (_ & P) ->. specialize (P (b * n) Lb). rewrite N.div_mul in P by exact Zn'. specialize (P eq_refl). cbn in P. lia.
Qed.


(** a step that the file does not notice *)
Lemma hist_same S S' : man S' = man S -> (forall j, (j < ncol S)%nat -> file (cst S' j) = file (cst S j)) -> history S -> history S'.
Proof.
  intros Em Ef (m1 & ws & H1 & H2 & H3 & H4 & H5 & H6 & H7 & H8 & H9). exists m1, ws. rewrite Em. repeat (split; [assumption|]). intros i col b y Hc Hb. rewrite Ef; [eauto|].
  unfold System.ncol. rewrite H5. apply nth_error_Some. congruence.
Qed.

Lemma ua_open : UA (fun _ => K) (sopen cfg T nt m).
Proof.
  constructor; cbn [System.man sopen]; try apply Hm; trivial.
  - now intros j _.
  - lia.
  - intros b Hb. apply blocks_k in Hb. lia.
  - intros _ b H1 H2. lia.
  - destruct (hd_init _ _ _ _ _ _ _ _ Hm) as (m1 & ws & w & k & d & I & Hk & Hw & Fw & Hin & Hf & Hn & Cs & Hh & Hs). exists m1, ws. cbn [System.man sopen]. repeat (split; [assumption|]). split; [eauto 8|].
    intros i col b y Hc Hb. cbn [System.cst sopen file opened]. rewrite Cs, Hc. unfold disk. rewrite (proj2 (N.ltb_ge _ _) Hb). discriminate.
  - intros j _. pose proof (ap_open (e := colenv j) (dsk j) nb n na K K2 (D2 j)) as Q. cbn [System.cst sopen]. rewrite (hd_rows _ _ _ _ _ _ _ _ Hm), (hd_ants _ _ _ _ _ _ _ _ Hm), Nat2N.id. exact Q.
Qed.

Lemma ua_call ks S S' i (a : call (colenv i)) k' : UA ks S -> scall cfg T nt S S' i a -> apps i k' (set_code (cst S i) (call_code a)) ->
  UA (fun j => if (j =? i)%nat then k' else ks j) S'.
Proof.
  intros U (Hi & R & C0 & Ci & _ & _ & E & Em & Ea & Eo) Hs. assert (Nc : ncol S' = ncol S) by (unfold System.ncol; now rewrite Em).
  assert (Q : forall j, closed (cst S' j) = closed (cst S j) /\ file (cst S' j) = file (cst S j)).
  { intros j. destruct (Nat.eq_dec j i) as [->|Nj]; [now rewrite E|now rewrite (Eo j Nj)]. }
  constructor; rewrite ?Em; try apply U.
  - unfold System.running. rewrite Nc. intros j Hj. destruct (Nat.eq_dec j i) as [->|Nj]; [rewrite E; now apply R|rewrite (Eo j Nj); now apply R].
  - rewrite Nc. intros H. apply (ua_full _ _ U). intros j Hj. rewrite <- (proj1 (Q j)). now apply H.
  - apply (hist_same S S' Em); [intros j _; apply Q|apply U].
  - rewrite Nc. intros j Hj. destruct (Nat.eqb_spec j i) as [Z|Nj]; [subst j; now rewrite E|rewrite (Eo j Nj); now apply (ua_col _ _ U)].
Qed.

Lemma ua_open_all ks S i b c : SI cfg T nt A (sopen cfg T nt m) S -> UA ks S -> (i < ncol S)%nat -> code (cst S i) = ILoad b :: c -> forall j, (j < ncol S)%nat -> closed (cst S j) = false.
Proof.
  intros Is U Hi Hc j Hj. destruct (closed (cst S j)) eqn:Cl; trivial. exfalso.
  destruct (s_closed _ _ _ _ _ _ Is (ex_intro _ j (conj Hj Cl)) i Hi) as [Q|[Q|Q]]; [congruence..|].
  destruct (ua_ainv ks S i U Hi) as (_ & Ui & _). pose proof (a_code _ _ _ _ _ _ _ _ _ Ui) as Cd.
  destruct Cd as [[H'|(H' & _)] C _ _ _|r _ _ _ [H'|H'] C _ _|r _ _ _ H' _ C _ _ _|r _ _ _ H' C _ _ _|r _ _ _ H' C _ _ _ _ _|_ H' C _ _|_ [H'|[H'|H']] C _ _]; rewrite Hc in H'; try discriminate. congruence.
Qed.

Lemma ua_moved ks S S' : SI cfg T nt A (sopen cfg T nt m) S -> UA ks S -> ncol S' = ncol S -> running S' -> rowsPerBlock (man S') = n -> antennaCount (man S') = N.of_nat na ->
  columns (man S') = columns m -> bytes8 (fil (man S')) -> nb <= nBlocksInFile (man S') -> (forall b, b < nBlocksInFile (man S') -> b * n < K2) ->
  ((forall j, (j < ncol S)%nat -> closed (cst S j) = false) -> forall b, nb <= b -> b < nBlocksInFile (man S') -> (b + 1) * n <= K2) -> history S' ->
  (forall j, (j < ncol S)%nat -> moved cfg T nt S S' j) -> UA ks S'.
Proof.
  intros Is U Nc R Er Ea Ec B8 Mo Bd Fl Hh Mv. constructor; trivial; rewrite Nc.
  - intros H. apply Fl. intros j Hj. destruct (closed (cst S j)) eqn:Cl; trivial. exfalso. specialize (H j Hj). destruct (Mv j Hj) as [E|Ss Nd|n' m' c Ha Hc Cl' Rz Cj Clj E].
    + congruence.
    + rewrite (step_closed _ _ Ss Cl) in H. discriminate.
    + congruence.
  - intros j Hj. destruct (ua_ainv ks S j U Hj) as (Hu & Ui & _). destruct (Mv j Hj) as [E|Ss Nd|n' m' c Ha Hc Cl' Rz Cj Clj E].
    + now rewrite E.
    + apply (ap_step _ _ _ _ _ _ _ _ (cst S j)); trivial; [now apply (ua_run _ _ U)|]. intros b c Hc Hb. destruct (N.lt_ge_cases b nb) as [Lb|Lb]; [now left|right].
      rewrite (s_nblk _ _ _ _ _ _ Is j Hj) in Hb. apply (ua_full _ _ U); trivial. eapply ua_open_all; eauto.
    + exfalso. rewrite (a_rpb _ _ _ _ _ _ _ _ _ Ui) in Rz. lia.
Qed.

Lemma ua_same ks S S' : SI cfg T nt A (sopen cfg T nt m) S -> UA ks S -> man S' = man S -> running S' -> (forall j, (j < ncol S)%nat -> file (cst S' j) = file (cst S j)) ->
  (forall j, (j < ncol S)%nat -> moved cfg T nt S S' j) -> UA ks S'.
Proof.
  intros Is U Em R Ef Mv. assert (Nc : ncol S' = ncol S) by (unfold System.ncol; now rewrite Em).
  apply (ua_moved ks S); trivial; rewrite ?Em; try apply U. now apply (hist_same S S' Em Ef), U.
Qed.

Lemma ua_load ks S i col b c old : SI cfg T nt A (sopen cfg T nt m) S -> UA ks S -> nth_error (columns (man S)) i = Some col -> len old = co_blockSize col -> Forall (fun v => v < 2 ^ 8) old ->
  status (sys_load cfg T nt (man S) i col old (set_code (cst S i) c) b) = Running.
Proof.
  intros Is U Hc Lo Fo. assert (Hi : (i < ncol S)%nat) by (unfold System.ncol; apply nth_error_Some; congruence).
  destruct (ua_ainv ks S i U Hi) as (Hu & Ui & _). destruct Ui as [R Er En Nk Mg _]. pose proof (ua_index ks S i U Hi) as Hi'.
  destruct (held_shape cfg T nt m0 K n na New Zn N32 Na32 Tot m Hm) as (_ & De & _ & Lc & _); trivial.
  pose proof (ua_rows _ _ U) as Em. pose proof (ua_ants _ _ U) as Ea. pose proof Hc as Hc'. rewrite (ua_cols _ _ U) in Hc'.
  destruct (De i col Hc') as (D1' & D2' & D3'). assert (Hi0 : (i < length (columns m0))%nat) by (rewrite <- Lc; exact Hi').
  unfold sys_load. cbv zeta. set (s1 := if cached _ _ then _ else _).
  assert (Q : rpb s1 = n /\ nant s1 = na /\ status s1 = Running) by (unfold s1; destruct (cached _ b); cbn; auto).
  destruct Q as (Q1 & Q2 & Q3). clearbody s1. destruct (N.ltb_spec b (nBlocksInFile (man S))) as [Hb|Hb]; [|exact Q3].
  destruct (read_ok (man S) (s_placed _ _ _ _ _ _ Is) (ua_fits _ _ U) ltac:(lia) b i col Hc Hb (s_begun _ _ _ _ _ _ Is)) as (r & Err & Lr). rewrite Err.
  destruct (load_total (cfg i) (L i) (N.to_nat (rpb s1)) (nant s1) (block_ants T (rpb s1) b) (match r with Some y => y | None => old end)
      (repeat 0 (nSymbols (codec_of (cfg i)) (N.to_nat (rpb s1)))) (Co i)) as (rows & ->); [| | | |exact Q3].
  + destruct r as [y|]; [eapply read8; [|exact Err]; apply (ua_bytes _ _ U)|exact Fo].
  + assert (Ll : len (match r with Some y => y | None => old end) = co_blockSize col) by (destruct r as [y|]; auto).
    rewrite (placed_size _ (s_placed _ _ _ _ _ _ Is) ltac:(lia) i col Hc), Em, Ea, (size_agrees _ _ _ _ D1') in Ll. rewrite Q1, Q2. apply Nat2N.inj. exact Ll.
  + apply repeat_length.
  + intros Ha r0 _. rewrite Q2. now apply (Af i).
Qed.

Lemma ua_code ks S i k q c : UA ks S -> (i < ncol S)%nat -> code (cst S i) = ISetRpb k q :: c -> False.
Proof.
  intros U Hi Hc. destruct (ua_ainv ks S i U Hi) as (_ & Ui & _). pose proof (a_code _ _ _ _ _ _ _ _ _ Ui) as Cd.
  destruct Cd as [[H'|(H' & _)] C _ _ _|r _ _ _ [H'|H'] C _ _|r _ _ _ H' _ C _ _ _|r _ _ _ H' C _ _ _|r _ _ _ H' C _ _ _ _ _|_ H' C _ _|_ [H'|[H'|H']] C _ _]; rewrite Hc in H'; discriminate.
Qed.

Lemma ua_main ks S i x c s' : UA ks S -> (i < ncol S)%nat -> code (cst S i) = x :: c -> mwait (cst S i) = false -> plain x = true -> exec None (cst S i) x c = Some s' -> status s' = Running.
Proof.
  intros U Hi Hc Mw P E. pose proof (ua_col _ _ U i Hi) as Hu. pose proof (ua_index ks S i U Hi) as Hi'.
  destruct (append_fails (dsk i) nb n na K K2 (D2 i) Zn' Nb64 (disk_within cfg T nt m i) blocks_k (dsk_rd i Hi') K12 (d2_length i) NT (cols_af i Hi') (ks i) (cst S i) s' Hu (ua_run _ _ U i Hi)) as [Q|(b & c' & Q)]; trivial.
  - apply step_int. apply step_main with (junk := None) (i := x) (c := c); trivial; [now apply (ua_run _ _ U)|exact Logic.I].
  - left. congruence.
  - exfalso. rewrite Hc in Q. injection Q as -> _. discriminate.
Qed.

(** a block is written *)
Lemma ua_write ks S S' i k b x y col : SI cfg T nt A (sopen cfg T nt m) S -> UA ks S -> nth_error (columns (man S)) i = Some col -> nth_error (workers (cst S i)) k = Some (WPicked b x) ->
  enc (colenv i) (rpb (cst S i)) (nant (cst S i)) x y -> man S' = writeCompressedData (man S) b col y -> file (cst S' i) = upd_map (file (cst S i)) b y ->
  (forall j, j <> i -> file (cst S' j) = file (cst S j)) ->
  rowsPerBlock (man S') = n /\ antennaCount (man S') = N.of_nat na /\ columns (man S') = columns m /\ bytes8 (fil (man S')) /\ nb <= nBlocksInFile (man S') /\
  (forall b, b < nBlocksInFile (man S') -> b * n < K2) /\
  ((forall j, (j < ncol S)%nat -> closed (cst S j) = false) -> forall b, nb <= b -> b < nBlocksInFile (man S') -> (b + 1) * n <= K2) /\ history S'.
Proof.
  intros Is U Hc Hw Ey Em Ef Eo. assert (Hi : (i < ncol S)%nat) by (unfold System.ncol; apply nth_error_Some; congruence).
  destruct (ua_ainv ks S i U Hi) as (Hu & Ui & Iv). pose proof (ua_index ks S i U Hi) as Hi'.
  destruct (picked_append (dsk i) nb n na K K2 (D2 i) Zn' Nb64 K12 NT (ks i) (cst S i) b x Iv Ui (nth_error_In _ _ Hw)) as (_ & mm & Lm & Ab & Kb & Bm & B32 & Em' & Cl).
  rewrite (a_rpb _ _ _ _ _ _ _ _ _ Ui), (a_nant _ _ _ _ _ _ _ _ _ Ui) in Ey.
  destruct (held_shape cfg T nt m0 K n na New Zn N32 Na32 Tot m Hm) as (_ & De & _ & Lc & _); trivial. pose proof Hc as Hc'. rewrite (ua_cols _ _ U) in Hc'.
  destruct (De i col Hc') as (D1' & D2' & D3').
  assert (Ly : len y = co_blockSize col).
  { rewrite (placed_size (man S) (s_placed _ _ _ _ _ _ Is) ltac:(rewrite (ua_rows _ _ U); exact Zn') i col Hc), (ua_rows _ _ U), (ua_ants _ _ U), (size_agrees _ _ _ _ D1'). unfold len. f_equal. exact (UpdateBlock.enc_length T nt (cfg i) (L i) n na x y (Co i) Ey). }
  assert (Ny : y <> []).
  { intros ->. change (len []) with 0 in Ly. pose proof (size_pos (cfg i) col (rowsPerBlock (man S)) (antennaCount (man S)) D1' D2' D3') as Q.
    rewrite <- (placed_size (man S) (s_placed _ _ _ _ _ _ Is) ltac:(rewrite (ua_rows _ _ U); exact Zn') i col Hc), (ua_rows _ _ U) in Q. specialize (Q Zn'). lia. }
  destruct (write_settings (man S) b col y) as (W1 & W2 & W3 & W4 & W5 & W6). rewrite <- Em in *.
  assert (W6' : nBlocksInFile (man S') = N.max (nBlocksInFile (man S)) (b + 1)) by (rewrite W6; lia).
  split; [rewrite W1; apply U|]. split; [rewrite W2; apply U|]. split; [rewrite W5; apply U|]. split.
  { rewrite Em, writeCompressed_fil. apply write8; [apply U|]. eapply enc_fits. exact Ey. }
  split; [rewrite W6'; pose proof (ua_more _ _ U); lia|]. split; [|split].
  - intros b' Hb'. rewrite W6' in Hb'. destruct (N.lt_ge_cases b' (nBlocksInFile (man S))) as [Q|Q]; [now apply (ua_bound _ _ U)|]. assert (b' <= b) by lia. apply N.le_lt_trans with (b * n); [now apply N.mul_le_mono_r|lia].
  - intros Op b' Lb Hb'. rewrite W6' in Hb'. destruct (N.lt_ge_cases b' (nBlocksInFile (man S))) as [Q|Q]; [now apply (ua_full _ _ U)|]. assert (b' + 1 <= b + 1) by lia.
    apply N.le_trans with ((b + 1) * n); [now apply N.mul_le_mono_r|]. specialize (Cl (Op i Hi)). lia.
  - destruct (ua_hist _ _ U) as (m1 & ws & H1 & H2 & H3 & H4 & H5 & H6 & H7 & (w & k' & d & L1 & L2 & L3) & H9). exists m1, (ws ++ [(b, col, y)]).
    destruct (StManProofs.writes_settings ws m1) as (Ws0 & Ws1 & Ws2 & Ws3).
    split; trivial. split; [|split; [|split; [|split; [|split; [|split; [|split]]]]]]; try congruence.
    + apply Forall_app. split; trivial. constructor; [|constructor]. cbn [fst snd]. split; [|now split]. rewrite <- H5. eapply nth_error_In; eauto.
    + rewrite Em. unfold writes. rewrite fold_left_app. cbn [fold_left write1]. apply write_same; [exact H3|rewrite H6; now symmetry|rewrite H7; now symmetry].
    + unfold writes. rewrite fold_left_app. cbn [fold_left write1]. fold (writes m1 ws). destruct (write_settings (writes m1 ws) b col y) as (_ & _ & _ & _ & _ & ->). rewrite <- H4. exact W6.
    + exists w, k', d. repeat (split; [assumption|]). apply in_or_app. now left.
    + intros j cj b' z Hj Hb Hf. destruct (Nat.eq_dec j i) as [Q|Nj].
      * subst j. rewrite Ef in Hf. rewrite <- H5, Hc in Hj. injection Hj as <-. unfold upd_map in Hf. destruct (N.eqb_spec b' b) as [->|Nb].
        -- exists y. apply in_or_app. right. now left.
        -- destruct (H9 i col b' z) as (d' & Hd'); [now rewrite <- H5|trivial..|]. exists d'. apply in_or_app. now left.
      * rewrite (Eo j Nj) in Hf. destruct (H9 j cj b' z Hj Hb Hf) as (d' & Hd'). exists d'. apply in_or_app. now left.
Qed.

Theorem ua_session ks S : session ks S -> UA ks S.
Proof.
  induction 1 as [|ks S S' i Hs IH Lk Sc|ks S S' i Hs IH Al Sc|ks S S' Hs IH Mv|ks S S' Hs IH Wk].
  - exact ua_open.
  - pose proof Sc as (Hi & R & C0 & Ci & Uc & _). apply (ua_call ks S S' i (Put (ks i) (D2 i (ks i)))); trivial. apply ap_put; auto. now apply (ua_col _ _ IH).
  - pose proof Sc as (Hi & R & C0 & Ci & Uc & _). assert (X : UA (fun j => if (j =? i)%nat then K2 else ks j) S').
    { apply (ua_call ks S S' i Shutdown); trivial. apply ap_close; auto. pose proof (ua_col _ _ IH i Hi) as Q. cbv beta in Q. rewrite (Al i Hi) in Q. exact Q. }
    destruct X as [X1 X2 X3 X4 X5 X6 X7 X8 X9 X10]. constructor; trivial. intros j Hj. specialize (X10 j Hj). cbv beta in X10. destruct (Nat.eqb_spec j i) as [Q|_]; [|trivial]. subst j. rewrite (Al i Hi). exact X10.
  - pose proof (move_columns cfg T nt S S' Mv) as Nc. pose proof (ua_si ks S Hs IH) as Is.
    (* it keeps running *)
    assert (X : running S' /\ ((man S' = man S /\ forall j, (j < ncol S)%nat -> file (cst S' j) = file (cst S j)) \/
       exists i k b x y col, nth_error (columns (man S)) i = Some col /\ nth_error (workers (cst S i)) k = Some (WPicked b x) /\ enc (colenv i) (rpb (cst S i)) (nant (cst S i)) x y /\
         man S' = writeCompressedData (man S) b col y /\ file (cst S' i) = upd_map (file (cst S i)) b y /\ (forall j, j <> i -> file (cst S' j) = file (cst S j)))).
    { destruct Mv as [i x c Hi R Hc Mw P Oi E Em On|i b c col old Hn R Hc Mw Oi Lo Fo E Em On|i n' m' c Hi R Hc Mw Ha Oi Ei E Ea Eo|
        i n' m' c Hi R Hc Mw Ha Oi Ei E Em On|i n' m' c Hi R Hc Mw Ha E Em On|i k w y s' w' col Hn R Hw Ey E Es Em Ea Eo].
      - split.
        + unfold System.running. rewrite Nc. intros j Hj. destruct (Nat.eq_dec j i) as [->|Nj]; [|rewrite (proj2 On j Nj); now apply IH]. eapply ua_main; eauto.
        + left. split; trivial. intros j Hj. destruct (Nat.eq_dec j i) as [->|Nj]; [apply (exec_plain _ _ _ _ P E)|now rewrite (proj2 On)].
      - split.
        + unfold System.running. rewrite Nc. intros j Hj. destruct (Nat.eq_dec j i) as [->|Nj]; [|rewrite (proj2 On j Nj); now apply IH]. rewrite E. now apply (ua_load ks).
        + left. split; trivial. intros j Hj. destruct (Nat.eq_dec j i) as [->|Nj]; [now rewrite E, load_file|now rewrite (proj2 On)].
      - exfalso. eapply ua_code; eauto.
      - exfalso. eapply ua_code; eauto.
      - exfalso. eapply ua_code; eauto.
      - assert (Hi : (i < ncol S)%nat) by (apply nth_error_Some; congruence). pose proof (ua_index ks S i IH Hi) as Hi'. destruct (ua_ainv ks S i IH Hi) as (_ & Ui & Iv).
        pose proof (ainv_worker (dsk i) nb n na K K2 (D2 i) Zn' Nb64 K12 NT (cols_af i Hi') (ks i) (cst S i) s' y k w w' Iv Ui Hw E) as Ui'. rewrite <- Es in Ui'.
        assert (R' : running S').
        { unfold System.running. rewrite Nc. intros j Hj. destruct (Nat.eq_dec j i) as [->|Nj]; [apply Ui'|rewrite (Eo j Nj); now apply IH]. }
        split; trivial. destruct (wexec_fields _ _ _ _ _ k E) as (_ & _ & _ & _ & _ & _ & _ & F). cbv zeta in F. rewrite <- Es in F. specialize (F (R i Hi) (R' i ltac:(lia))).
        assert (Fo : forall j, j <> i -> file (cst S' j) = file (cst S j)) by (intros j Nj; now rewrite (Eo j Nj)).
        assert (Nw : (forall b x, w <> WPicked b x) -> man S' = man S /\ forall j, (j < ncol S)%nat -> file (cst S' j) = file (cst S j)).
        { intros Nw. split; [rewrite Em; destruct w; trivial; now destruct (Nw b x)|]. intros j Hj. destruct (Nat.eq_dec j i) as [->|Nj]; [|now apply Fo]. destruct w; try apply F. now destruct (Nw b x). }
        destruct w as [| | |b x|b|]; try (left; apply Nw; discriminate). right. destruct F as (F1 & F2 & F3). rewrite F1 in Em. exists i, k, b, x, y, col.
        exact (conj Hn (conj Hw (conj (Ey b x eq_refl F1) (conj Em (conj F2 Fo))))). }
    destruct X as (R' & X).
    assert (Ft : fits32 (man S')).
    { intros _. destruct X as [(Em & _)|(i & k & b & x & y & col & Hn & Hw & Ey & Em & _)]; [rewrite Em; apply (ua_fits _ _ IH); rewrite (ua_rows _ _ IH); exact Zn'|].
      destruct (write_settings (man S) b col y) as (W1 & W2 & W3 & W4 & W5 & W6). rewrite Em, W1, W2, W5. apply (ua_fits _ _ IH). rewrite (ua_rows _ _ IH). exact Zn'. }
    assert (Is' : SI cfg T nt A (sopen cfg T nt m) S').
    { apply (si_reach cfg T nt A NT HA A32); trivial. apply (session_sreach ks). eapply sa_move; eauto. }
    pose proof (moves cfg T nt A NT HA A32 (sopen cfg T nt m) S S' St0 Is Is' Mv R') as Mvs.
    destruct X as [(Em & Ef)|(i & k & b & x & y & col & Hn & Hw & Ey & Em & Ef & Fo)]; [now apply (ua_same ks S)|].
    destruct (ua_write ks S S' i k b x y col Is IH Hn Hw Ey Em Ef Fo) as (Q1 & Q2 & Q3 & Q4 & Q5 & Q6 & Q7 & Q8). now apply (ua_moved ks S).
  - pose proof (ua_si ks S Hs IH) as Is. pose proof (wakes cfg T nt S S' Wk) as Mv.
    assert (Q : man S' = man S /\ forall j, status (cst S' j) = status (cst S j) /\ file (cst S' j) = file (cst S j)).
    { destruct Wk as [i k Hi Hw E Em On|i Hi Hw E Em On]; (split; [exact Em|]); intros j; (destruct (Nat.eq_dec j i) as [->|Nj]; [now rewrite E|now rewrite (proj2 On j Nj)]). }
    destruct Q as (Em & Q). apply (ua_same ks S); trivial; [|intros j _; apply Q]. unfold System.running, System.ncol. rewrite Em. intros j Hj. rewrite (proj1 (Q j)). now apply IH.
Qed.

(** ** Results *)
Theorem append_running ks S : session ks S -> running S.
Proof. intros H. apply (ua_session _ _ H). Qed.

Theorem append_finishes ks S : session ks S -> sfinishes S.
Proof.
  intros H. apply (sys_finishes cfg T nt A NT (sopen cfg T nt m) (session ks)); trivial.
  - intros S1 H1. apply (ua_si ks); trivial. now apply ua_session.
  - intros S1 H1. apply (ua_session _ _ H1).
  - intros S1 S2 H1 Mv. eapply sa_move; eauto.
  - intros S1 i H1 Hi b x Hw Ex. pose proof (ua_session _ _ H1) as U. destruct (ua_ainv ks S1 i U Hi) as (Hu & Ui & Iv). pose proof (ua_index ks S1 i U Hi) as Hi'.
    destruct (picked_append (dsk i) nb n na K K2 (D2 i) Zn' Nb64 K12 NT (ks i) (cst S1 i) b x Iv Ui Hw) as (_ & mm & Lm & Ab & Kb & Bm & B32 & Em' & Cl).
    pose proof (block_rows i mm b x Em' Lm Ab) as Rx.
    destruct (held_shape cfg T nt m0 K n na New Zn N32 Na32 Tot m Hm) as (_ & De & _). destruct (nth_error (columns m) i) as [col|] eqn:Hc; [|apply nth_error_None in Hc; lia].
    destruct (De i col Hc) as (_ & P2 & P3). apply (col_encodes (cfg i) (L i) T nt); trivial.
    + exact (block_some i mm b x Bm Ab).
    + clear - Rx. revert x Rx. unfold System.colenv. destruct (cfg i) as [| | |p ch bi]; trivial. intros x Rx. apply Forall_forall. intros v Hv. apply in_map_iff in Hv as (rw & <- & Hin). now destruct (Rx rw Hin).
  - intros S1 i k q c H1 Hi _ Hc. exact (False_ind _ (ua_code ks S1 i k q c (ua_session _ _ H1) Hi Hc)).
Qed.

Lemma row_here b k : N.of_nat k < n -> (b * n + N.of_nat k) / n = b /\ (b * n + N.of_nat k) mod n = N.of_nat k.
Proof. intros H. split; [symmetry; apply (N.div_unique _ _ _ (N.of_nat k)); lia|symmetry; apply (N.mod_unique _ _ b); lia]. Qed.

Theorem append_closed ks S : session ks S -> all_closed S -> held K2 n na (man S) /\ columns (man S) = columns m /\
  forall i, (i < length (columns m))%nat ->
    (forall b, (b + 1) * n <= K -> held_block cfg T nt (man S) i b = held_block cfg T nt m i b) /\
    (forall b, K < (b + 1) * n -> b * n < K2 -> exists x y, held_block cfg T nt (man S) i b = Some y /\ enc (colenv i) n na x y /\ (length x <= N.to_nat n)%nat /\
      (forall r, r < K2 -> r / n = b -> nth_error x (N.to_nat (r mod n)) <> None) /\
      (K <= b * n -> exact_block (colenv i) (D2 i) K2 n b x) /\
      forall k row, nth_error x k = Some row -> (antenna1 row, antenna2 row) = t_ants T (b * n + N.of_nat k) /\
        (if K <=? b * n + N.of_nat k then if b * n + N.of_nat k <? K2 then visibilities row = firstn (nPol_of (cfg i) * nChan_of (cfg i)) (D2 i (b * n + N.of_nat k))
           else b * n < K /\ held_row cfg T nt m i (b * n + N.of_nat k) = Some (visibilities row)
         else held_row cfg T nt m i (b * n + N.of_nat k) = Some (visibilities row)) /\
        exists out, held_row cfg T nt (man S) i (b * n + N.of_nat k) = Some out /\
          kept (cfg i) (L i) na x (floats (nMetaFloats (codec_of (cfg i)) (N.to_nat n) na) y) row out).
Proof.
  intros Hs Cl. pose proof (ua_session _ _ Hs) as U. pose proof (ua_si ks S Hs U) as Is.
  destruct (held_shape cfg T nt m0 K n na New Zn N32 Na32 Tot m Hm) as (_ & De & _ & Lc & _).
  assert (Hn : ncol S = length (columns m)) by (unfold System.ncol; now rewrite (ua_cols _ _ U)).
  assert (X : forall i, (i < length (columns m))%nat -> forall b,
    ((K / n <= b /\ b * n < K2) /\ exists x y, file (cst S i) b = Some y /\ enc (colenv i) n na x y /\ ab (e := colenv i) (dsk i) nb n na K K2 (D2 i) K2 b x) \/
    (~ (K / n <= b /\ b * n < K2) /\ file (cst S i) b = dsk i b)).
  { intros i Hi b. assert (Hi' : (i < ncol S)%nat) by lia. destruct (Cl i Hi') as (C1 & C2).
    destruct (ColumnAppend.append_closed (dsk i) nb n na K K2 (D2 i) Zn' Nb64 (disk_within cfg T nt m i) blocks_k (dsk_rd i Hi) K12 (d2_length i) NT (cols_af i Hi) (ks i) (cst S i)
      (ua_col _ _ U i Hi') (ua_run _ _ U i Hi') C1 C2) as (_ & F1 & F2 & F3).
    destruct (last (cst S i) b) as [x|] eqn:El.
    - left. destruct (F1 b x El) as (y & Y1 & Y2 & Y3 & Y4 & Y5). split; [now split|]. exists x, y. auto.
    - right. split; [|now apply F2]. intros (Q1 & Q2).
      assert (Y : exists r, K <= r < K2 /\ r / n = b).
      { destruct (N.le_gt_cases K (b * n)) as [Lb|Lb]; [exists (b * n); split; [lia|now apply N.div_mul]|]. exists K. split; [lia|]. apply N.le_antisymm; [trivial|]. apply N.div_le_lower_bound; [exact Zn'|]. rewrite N.mul_comm. lia. }
      destruct Y as (r & Y1 & <-). now apply (F3 r Y1). }
  assert (Fd : forall i b y, (i < length (columns m))%nat -> file (cst S i) b = Some y -> held_block cfg T nt (man S) i b = Some y).
  { intros i b y Hi Hf. destruct (nth_error (columns m) i) as [col|] eqn:Hc; [|apply nth_error_None in Hc; lia]. assert (Hc' : nth_error (columns (man S)) i = Some col) by now rewrite (ua_cols _ _ U).
    destruct (s_file _ _ _ _ _ _ Is i col b y Hc' Hf) as (L1 & L2 & L3). unfold held_block. rewrite Hc'. unfold disk. now rewrite (proj2 (N.ltb_lt _ _) L1), L3. }
  assert (Kn : forall b, K / n <= b <-> K < (b + 1) * n).
  { intros b. split; intros H.
    - pose proof (N.div_mod K n Zn') as Q1. pose proof (N.mod_upper_bound K n Zn') as Q2. rewrite N.mul_comm in Q1. revert Q1 Q2 H. generalize (K / n) (K mod n). intros u v Q1 Q2 H.
      assert (u * n <= b * n) by now apply N.mul_le_mono_r. rewrite N.mul_add_distr_r, N.mul_1_l. clear - Q1 Q2 H0. lia.
    - apply N.lt_succ_r. apply N.div_lt_upper_bound; [exact Zn'|]. rewrite N.mul_comm, <- N.add_1_r. exact H. }
  assert (Bf : forall i b, (i < length (columns m))%nat -> b < nBlocksInFile (man S) -> exists y, file (cst S i) b = Some y /\ sound T nt (cfg i) n na y).
  { intros i b Hi Hb. pose proof (ua_bound _ _ U b Hb) as Lb. destruct (nth_error (columns m) i) as [col|] eqn:Hc; [|apply nth_error_None in Hc; lia]. destruct (De i col Hc) as (P1 & P2 & P3).
    destruct (X i Hi b) as [(_ & x & y & Fy & Ey & Ax)|(Nk & Ef)].
    - exists y. split; trivial. apply (enc_sound T nt (cfg i) (L i) n na x y (Co i) P2 Ey); [|apply Af; rewrite <- Lc; exact Hi]. apply (block_rows i K2 b x); trivial; [now right|lia].
    - assert (Lk : b < K / n) by (destruct (N.lt_ge_cases b (K / n)) as [Q|Q]; [exact Q|]; destruct (Nk (conj Q Lb))).
      assert (Bk : b < nb). { apply blocks_k. destruct (N.lt_ge_cases (b * n) K) as [Q|Q]; [exact Q|exfalso]. assert (K / n <= b) by (apply Kn; rewrite N.mul_add_distr_r; lia). lia. }
      destruct (held_disk cfg T nt m0 K n na m i col b Hm Hc Bk) as (y & Y1 & _ & Y3). exists y. split; trivial. rewrite Ef. unfold disk_of. now rewrite Hc. }
  assert (Pb : forall b, b < nBlocksInFile (man S) <-> b * n < K2).
  { intros b. split; [apply (ua_bound _ _ U)|]. intros Hb. destruct (N.lt_ge_cases b nb) as [Q|Q]; [pose proof (ua_more _ _ U); lia|].
    destruct (hd_init _ _ _ _ _ _ _ _ Hm) as (m1 & ws & w & k & d & _ & Hk & Hw & _ & _ & _ & _ & Cs & _). assert (Hi : (k < length (columns m))%nat) by (rewrite Cs; lia).
    assert (Kb : K / n <= b). { apply Kn. destruct (N.lt_ge_cases K ((b + 1) * n)) as [G|G]; [exact G|exfalso]. assert (b * n < K) by (rewrite N.mul_add_distr_r in G; lia). apply blocks_k in H. lia. }
    destruct (X k Hi b) as [(_ & x & y & Fy & _)|(Nk & _)]; [|now destruct Nk].
    rewrite <- Cs in Hw. rewrite <- (ua_cols _ _ U) in Hw. apply (s_file _ _ _ _ _ _ Is k w b y Hw Fy). }
  assert (Nb0 : 0 < nBlocksInFile (man S)) by (apply Pb; lia).
  split; [|split; [apply U|]].
  - constructor; trivial; try apply U.
    + destruct (ua_hist _ _ U) as (m1 & ws & H1 & H2 & H3 & H4 & H5 & H6 & H7 & (w & k & d & L1 & L2 & L3) & H9).
      assert (Hi : (k < length (columns m))%nat) by (rewrite <- (ua_cols _ _ U), H5; lia).
      destruct (Bf k (nBlocksInFile (man S) - 1) Hi ltac:(lia)) as (y & Fy & _).
      assert (In' : exists d', In (nBlocksInFile (man S) - 1, w, d') ws).
      { destruct (N.le_gt_cases nb (nBlocksInFile (man S) - 1)) as [Q|Q]; [now apply (H9 k w _ y)|]. exists d. pose proof (ua_more _ _ U). replace (nBlocksInFile (man S) - 1) with (nb - 1) by lia. exact L3. }
      destruct In' as (d' & In'). exists m1, ws, w, k, d'. auto 12.
    + apply (s_small _ _ _ _ _ _ Is).
    + apply (s_begun _ _ _ _ _ _ Is).
    + intros i col b Hc Hb. assert (Hi : (i < length (columns m))%nat) by (rewrite <- Hn; unfold System.ncol; apply nth_error_Some; congruence).
      destruct (Bf i b Hi Hb) as (y & Fy & Sy). exists y. split; trivial. apply (s_file _ _ _ _ _ _ Is i col b y Hc Fy).
  - intros i Hi. destruct (nth_error (columns m) i) as [col|] eqn:Hc; [|apply nth_error_None in Hc; lia]. destruct (De i col Hc) as (P1 & P2 & P3). split.
    + intros b Hb. assert (Lk : b * n < K) by (rewrite N.mul_add_distr_r in Hb; lia). destruct (X i Hi b) as [((Q & _) & _)|(_ & Ef)]; [apply Kn in Q; lia|].
      destruct (held_disk cfg T nt m0 K n na m i col b Hm Hc) as (y & Y1 & _ & _); [now apply blocks_k|].
      assert (Ed : dsk i b = Some y) by (unfold disk_of; now rewrite Hc). change (held_block cfg T nt m i b) with (dsk i b). rewrite Ed. apply Fd; trivial. now rewrite Ef.
    + intros b Hb Lb. destruct (X i Hi b) as [(_ & x & y & Fy & Ey & Ax)|(Nk & _)]; [|destruct Nk; split; trivial; now apply Kn]. exists x, y. split; [now apply Fd|]. split; trivial.
      pose proof (ab_rows (dsk i) nb n na K K2 (D2 i) Zn' Nb64 K12 NT K2 b x (or_intror eq_refl) (N.le_refl _) Ax) as Rx.
      assert (Lx : (length x <= N.to_nat n)%nat).
      { destruct (Nat.le_gt_cases (length x) (N.to_nat n)) as [Q|Q]; [exact Q|]. destruct (nth_error x (N.to_nat n)) as [row|] eqn:E; [|apply nth_error_None in E; clear - E Q; lia]. destruct (Rx _ row E) as (_ & _ & G & _). clear - G. lia. }
      assert (Hr : forall r, r < K2 -> r / n = b -> nth_error x (N.to_nat (r mod n)) <> None) by (intros r R1 R2; apply nth_error_Some; exact (proj2 Ax r R1 R2)).
      split; trivial. split; trivial. split.
      * intros Kb. assert (Nb' : nb <= b) by (destruct (N.lt_ge_cases b nb) as [Q|Q]; [apply blocks_k in Q; lia|exact Q]).
        assert (Rk : forall k row, nth_error x k = Some row -> b * n + N.of_nat k < K2).
        { intros k row Hk. destruct (Rx k row Hk) as (_ & _ & _ & [(Q & _)|(_ & Q & _)]); [exact Q|lia]. }
        split; [split; [clear - Lx; lia|split]|].
        -- intros k row Hk. destruct (Rx k row Hk) as (Q1 & Q2 & _). now split.
        -- intros r R1 R2. destruct (nth_error x (N.to_nat (r mod n))) as [row|] eqn:E; [|now destruct (Hr r R1 R2)]. exists row. split; trivial.
           destruct (Rx _ row E) as (_ & _ & _ & [(Q1 & Q2)|(Q1 & _)]).
           ++ rewrite N2Nat.id in *. assert (Er : b * n + r mod n = r) by (rewrite <- R2, N.mul_comm; symmetry; now apply N.div_mod). rewrite Er in Q2. unfold new_row in Q2. rewrite (proj2 (N.ltb_ge r K)) in Q2; [exact Q2|]. rewrite <- Er. clear - Kb. generalize (r mod n). intros; lia.
           ++ exfalso. rewrite N2Nat.id in Q1. assert (Er : b * n + r mod n = r) by (rewrite <- R2, N.mul_comm; symmetry; now apply N.div_mod). rewrite Er in Q1. clear - R1 Q1. lia.
        -- assert (Px : (0 < length x)%nat) by (pose proof (block_some i K2 b x Lb Ax); destruct x; [easy|cbn; lia]).
           assert (U1 : N.of_nat (length x) <= K2 - b * n).
           { destruct (nth_error x (length x - 1)) as [row|] eqn:E; [|apply nth_error_None in E; clear - E Px; lia]. specialize (Rk _ _ E). clear - Rk Px. lia. }
           assert (U2 : N.min n (K2 - b * n) <= N.of_nat (length x)).
           { set (q := N.min n (K2 - b * n)) in *. assert (Q0 : 0 < q) by (unfold q; clear - Zn Lb; lia). assert (Qn : N.of_nat (N.to_nat (q - 1)) < n) by (unfold q; clear - Zn; lia). destruct (row_here b (N.to_nat (q - 1)) Qn) as (G1 & G2).
             specialize (Hr (b * n + N.of_nat (N.to_nat (q - 1)))). rewrite G1, G2, Nat2N.id in Hr. assert (G3 : nth_error x (N.to_nat (q - 1)) <> None) by (apply Hr; trivial; unfold q; clear - Zn Lb; lia). apply nth_error_Some in G3. clear - G3 Q0. lia. }
           clear - U1 U2 Lx. lia.
      * intros k row Hk. destruct (Rx k row Hk) as (Q1 & Q2 & Q3 & Q4). split; [exact Q1|].
        assert (Hkn : N.of_nat k < n) by (clear - Q3; lia). destruct (row_here b k Hkn) as (E1 & E2).
        assert (Sr : forall v, stored_row (e := colenv i) (dsk i) n na (b * n + N.of_nat k) = Some v -> held_row cfg T nt m i (b * n + N.of_nat k) = Some v).
        { intros v Hv. unfold held_row. rewrite (hd_rows _ _ _ _ _ _ _ _ Hm), (hd_ants _ _ _ _ _ _ _ _ Hm), Nat2N.id. exact Hv. }
        split.
        -- unfold new_row in Q4. destruct (N.leb_spec K (b * n + N.of_nat k)) as [G|G].
           ++ destruct (N.ltb_spec (b * n + N.of_nat k) K2) as [G'|G'].
              ** destruct Q4 as [(_ & Q4)|(Q4 & _)]; [|lia]. rewrite (proj2 (N.ltb_ge _ _) G) in Q4. exact Q4.
              ** destruct Q4 as [(Q4 & _)|(_ & Q4 & Q5)]; [lia|]. split; [now apply blocks_k|now apply Sr].
           ++ destruct Q4 as [(_ & Q4)|(Q4 & _)]; [|lia]. rewrite (proj2 (N.ltb_lt _ _) G) in Q4. now apply Sr.
        -- destruct (block_kept_short T nt (cfg i) (L i) n na b x y (Co i) P2 P3 Zn' ltac:(lia) Lx (block_some i K2 b x Lb Ax) (fun q rw H => proj1 (Rx q rw H)) (block_rows i K2 b x (or_intror eq_refl) (N.le_refl _) Ax)
             (Af i ltac:(lia)) Ey k row Hk) as (out & Ho & Hkp).
           exists out. split; [|exact Hkp]. unfold held_row, stored_row. rewrite (ua_rows _ _ U), (ua_ants _ _ U), Nat2N.id, E1, E2, Nat2N.id, (Fd _ _ _ Hi Fy). exact Ho.
Qed.
End append.
