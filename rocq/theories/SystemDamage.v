(** Reading a table of which the file was damaged behind the header. *)
From Verif Require Import Base BaseLemmas Floats TimeBlockBuffer TbbSpec BitStream BytePacker File FileProofs StMan StManSpec HeaderProofs StManProofs.
From Verif Require Import StochasticEncoder TimeBlockEncoders TbeSpec Weights WeightSpec Block BlockSpec Column ColumnSpec ColumnProofs ColumnInv ColumnReach ColumnTerm ColumnData ColumnOrder ColumnWhole ColumnAmong ColumnRead
  StoredColumn StoredProofs System SystemSpec UpdateSpec SessionSpec DamageSpec SystemLow SystemCols SystemInv SystemOrder SystemEnd SystemRead SystemTotal SystemGood SystemWrite SystemTerm SystemPuts SystemFinal SystemAll UpdateBlock ColumnUpdate SystemHeld SystemUpdate SystemSessions.
From Coq Require Import ZifyNat ZifyN.
Local Open Scope N_scope.
Local Arguments System.colenv : simpl never.

(** ** The header is read the same *)
Lemma readColumns_same f f' : forall cs0 cs off s, Forall (fun c => co_blockSize c < 2 ^ 32 /\ co_antennas c < 2 ^ 32) cs ->
  length cs0 = length cs -> at_ f off (concat (map SerializeColumn cs)) -> at_ f' off (concat (map SerializeColumn cs)) -> ifail s = false ->
  readColumns f' off cs0 s = readColumns f off cs0 s.
Proof.
  induction cs0 as [|c0 cs0 IH]; intros [|c cs] off s F L H H' Fs; try discriminate; cbn [readColumns]; trivial.
  inversion F as [|? ? (Hb & Ha) F']; subst. cbn [map concat] in H, H'.
  apply at_app in H. destruct H as (H & Ht). apply at_app in H'. destruct H' as (H' & Ht'). unfold iseek. rewrite Fs.
  unfold SerializeColumn, SerializeExtraHeader in H, H'. do 2 (step_int H; step_int H'). read_int H. read_int H'.
  rewrite (IH cs (off + (GenericColumnHeader_calculateSize + ExtraHeaderSize)) (IStream (off + N.of_nat 4 + N.of_nat 4 + N.of_nat 4) false) F'); trivial. injection L; auto.
Qed.

Lemma readHeader_same m m0 f : storable m -> length (columns m0) = length (columns m) -> at_ (fil m0) 0 (header_bytes m) -> at_ f 0 (header_bytes m) ->
  readHeader (StMan.set_file m0 f) = do x <- readHeader m0; Ok (StMan.set_file (fst x) f, snd x).
Proof.
  intros St L A A'. pose proof (fits_header m St) as Fi. unfold header_bytes in A, A'. apply at_app in A. destruct A as (A1 & A2). apply at_app in A'. destruct A' as (A1' & A2').
  unfold readHeader. change (fil (StMan.set_file m0 f)) with f. rewrite (unserialize_ok _ _ Fi A1), (unserialize_ok _ _ Fi A1').
  cbn [bind ifail raw_of use r_headerSize r_columnHeaderOffset r_columnCount r_name r_rowsPerBlock r_antennaCount r_blockSize r_versionMajor r_versionMinor r_dataBitCount r_weightBitCount r_distribution r_normalization r_studentTNu r_truncation].
  change (columns (StMan.set_file m0 f)) with (columns m0). destruct (negb _); trivial. destruct (negb _); trivial.
  rewrite (readColumns_same (fil m0) f (columns m0) (columns m)); trivial.
  - destruct (readColumns _ _ _ _) as (cs & s). reflexivity.
  - apply (st_cols _ St).
  - rewrite SerializeHeader_len in A2. cbn [columnHeaderOffset header_of smName] in *. now rewrite colOffset_eq.
  - rewrite SerializeHeader_len in A2'. cbn [columnHeaderOffset header_of smName] in *. now rewrite colOffset_eq.
Qed.

Lemma at_kept f f' bs h : at_ f 0 bs -> len bs <= h -> h <= fsize f' -> (forall o, o < h -> fbyte f' o = fbyte f o) -> at_ f' 0 bs.
Proof.
  intros (L & E) Lh Lf Hb. split; [lia|]. rewrite <- E at 2. unfold bytes. apply map_ext_in. intros k Hk. apply in_seq in Hk. apply Hb. unfold len in Lh. lia.
Qed.

Lemma blocks_whole f h s : 0 < s -> h <= f -> forall b, b < (f - h) / s <-> h + s * (b + 1) <= f.
Proof.
  intros Hs Hf b. assert (Z : s <> 0) by lia. pose proof (N.mul_div_le (f - h) s Z) as Q. pose proof (N.mul_succ_div_gt (f - h) s Z) as Q'. set (nb := (f - h) / s) in *. clearbody nb. split; intros Hb; nia.
Qed.

Lemma blocks_less f h s x : 0 < s -> f < x -> (f - h) / s < x.
Proof. intros Hs Hf. apply N.le_lt_trans with (f - h); [apply N.div_le_upper_bound; nia|lia]. Qed.

Section damage.
Context (cfg : nat -> coldef) (T : table) (nt : nat) (m0 : stman) (D : forall i, N -> list (data (colenv cfg T nt i))) (K : N) (L : nat -> f32) (n : N) (na : nat).
Hypothesis W : writable cfg T nt m0 D K L n na.
Notation sys := (sys cfg T nt).
Notation cst := (cst cfg T nt). Notation man := (man cfg T nt). Notation active := (active cfg T nt).
Notation ncol := (ncol cfg T nt). Notation running := (running cfg T nt). Notation colenv := (colenv cfg T nt).
Notation held := (held cfg T nt m0 K n na).
Notation stored := (stored_table cfg T nt m0 D K).
Let NT := wr_threads _ _ _ _ _ _ _ _ _ W.
Let HA := allA_below T (wr_ants _ _ _ _ _ _ _ _ _ W).
Let New := wr_new _ _ _ _ _ _ _ _ _ W.
Let Co := wr_columns _ _ _ _ _ _ _ _ _ W.
Let Af := wr_af _ _ _ _ _ _ _ _ _ W.
Let Tot := wr_size _ _ _ _ _ _ _ _ _ W.
Let Zn : 0 < n := Zn cfg T nt m0 D K L n na W.

Definition with_file (m : stman) (f : File.file) (nb : N) : stman := set_nBlocks (StMan.set_file m f) nb.

(** the header of a table that was written *)
Lemma held_header m : n < 2 ^ 32 -> N.of_nat na < 2 ^ 32 -> held m -> exists mg, storable mg /\ length (columns mg) = length (columns m) /\ blockSize mg = blockSize m /\ at_ (fil m) 0 (header_bytes mg) /\ len (header_bytes mg) <= hdrSize m.
Proof.
  intros N32 Na32 [(m1 & ws & w & k & d & I & Hk & Hw & Fw & Hin & Hf & Hn & Cs & Hh & Hs) _ _ _ _ _ _ _].
  pose proof (init_storable _ _ _ _ N32 Na32 (nw_storable _ _ New) I Tot) as St1.
  unfold initializeRowsPerBlock in I. destruct (_ && _)%bool; [discriminate|]. destruct (place _ _ _ _) as (cs & t). injection I as I.
  set (mg := set_geometry m0 _ _ t cs) in I. assert (Stg : storable mg) by (rewrite <- I in St1; destruct St1; constructor; trivial).
  exists mg. split; trivial. split; [now rewrite Cs, <- I|]. split; [now rewrite Hs, <- I|]. rewrite Hf, Hh, <- I. split; [|now apply header_fits].
  apply writes_at; [apply written|]. now apply header_fits.
Qed.

Lemma prepare_file m2 m3 f nb : prepareMan m2 = Ok m3 -> prepareMan (with_file m2 f nb) = Ok (with_file m3 f nb).
Proof.
  unfold prepareMan, initializeRowsPerBlock, with_file. cbn [dataBitCount weightBitCount set_nBlocks StMan.set_file]. destruct (_ || _)%bool; [discriminate|].
  unfold areOffsetsInitialized. cbn [set_columns rowsPerBlock antennaCount columns set_nBlocks StMan.set_file].
  change (set_bits (set_nBlocks (StMan.set_file m2 f) nb)) with (set_bits m2).
  destruct (rowsPerBlock m2 =? 0); cbn [negb].
  - now intros [= <-].
  - destruct (true && _)%bool; [discriminate|]. destruct (place _ _ _ _) as (cs & t). now intros [= <-].
Qed.

(** the damaged file opened *)
Lemma damaged_open m mo nr : stored m -> damaged m mo -> exists m2 m3 m2' m3', n < 2 ^ 32 /\ N.of_nat na < 2 ^ 32 /\ held m /\ held m3 /\ columns m3 = columns m /\ hdrSize m3 = hdrSize m /\ blockSize m3 = blockSize m /\ same_options m0 m3 /\
  openMan nr (StMan.set_file mo (fil m)) = Ok m2 /\ prepareMan m2 = Ok m3 /\ openMan nr mo = Ok m2' /\ prepareMan m2' = Ok m3' /\ m3' = with_file m3 (fil mo) ((fsize (fil mo) - hdrSize m) / blockSize m) /\ 0 < blockSize m.
Proof.
  intros Sd (B8 & Fs & Hb & Sh). destruct (stored_held cfg T nt m0 D K L n na W m Sd) as (N32 & Na32 & H).
  destruct (held_header m N32 Na32 H) as (mg & Sg & Lg & Bg & Ag & Hl).
  destruct (held_open cfg T nt m0 K n na New Zn N32 Na32 Tot m (StMan.set_file mo (fil m)) nr H) as (m2 & m3 & O & P & H3 & Q1 & Q2 & Q3 & Q4 & Q5); [split; [reflexivity|exact Sh]|].
  assert (Lm : length (columns mo) = length (columns mg)) by (rewrite Lg; clear - Sh; induction Sh; cbn; congruence).
  pose proof (at_kept (fil m) (fil mo) (header_bytes mg) (hdrSize m) Ag Hl (proj1 Fs) Hb) as Ag'.
  pose proof (readHeader_same mg (set_nRow (StMan.set_file mo (fil m)) nr) (fil mo) Sg Lm Ag Ag') as Rh.
  change (StMan.set_file (set_nRow (StMan.set_file mo (fil m)) nr) (fil mo)) with (StMan.set_file (set_nRow mo nr) (fil mo)) in Rh.
  assert (Sf : StMan.set_file (set_nRow mo nr) (fil mo) = set_nRow mo nr) by now destruct mo. rewrite Sf in Rh.
  destruct (held_shape cfg T nt m0 K n na New Zn N32 Na32 Tot m H) as (Pm & Dm & Ft & _ & Shm).
  assert (G : hdrSize m3 = hdrSize m /\ blockSize m3 = blockSize m).
  { destruct H as [(m1 & ws & w & k & d & I & _ & _ & _ & _ & _ & _ & _ & Hh & Hs) _ _ _ _ _ _ _]. destruct H3 as [(m1' & ws' & w' & k' & d' & I' & _ & _ & _ & _ & _ & _ & _ & Hh' & Hs') _ _ _ _ _ _ _].
    assert (m1' = m1) by congruence. subst m1'. split; congruence. }
  destruct G as (G1 & G2).
  assert (Bp : 0 < blockSize m).
  { assert (0 < nBlocksInFile m) as Nb by (apply (hd_blocks _ _ _ _ _ _ _ _ H); pose proof (wr_more _ _ _ _ _ _ _ _ _ W); lia).
    assert (Zm : rowsPerBlock m <> 0) by (rewrite (hd_rows _ _ _ _ _ _ _ _ H); lia).
    destruct H as [(m1 & ws & w & k & d & I & Hk & Hw & _ & _ & _ & _ & Cs & _) _ _ _ _ _ _ _]. rewrite <- Cs in Hw. pose proof (placed_within m Pm Ft Zm k w Hw) as Q.
    destruct (Dm k w Hw) as (D1 & D2 & D3). pose proof (size_pos (cfg k) w (rowsPerBlock m) (antennaCount m) D1 D2 D3 Zm) as X. rewrite <- (placed_size m Pm Zm k w Hw) in X. lia. }
  unfold openMan in O. destruct (readHeader (set_nRow (StMan.set_file mo (fil m)) nr)) as [(mr & s)| |] eqn:Er; try discriminate. cbn [bind fst snd] in O, Rh.
  destruct (ifail s) eqn:Fa; [discriminate|].
  assert (X : exists nb2, m2 = set_nBlocks mr nb2).
  { destruct (_ <? _); [destruct (_ =? _); [discriminate|]|]; injection O as <-; eauto. }
  destruct X as (nb2 & X).
  assert (Gr : hdrSize mr = hdrSize m /\ blockSize mr = blockSize m).
  { assert (R0 : rowsPerBlock m3 <> 0) by (rewrite (hd_rows _ _ _ _ _ _ _ _ H3); apply not_eq_sym, N.lt_neq, Zn).
    destruct (header_roundtrip_at mg (set_nRow (StMan.set_file mo (fil m)) nr) Sg Lm Ag) as (mr' & s' & Er' & _ & SS & _). assert (mr' = mr) by congruence. subst mr'.
    assert (Z : hdrSize m3 = hdrSize m2).
    { clear - P. unfold prepareMan, initializeRowsPerBlock in P. destruct (_ || _)%bool; [discriminate|]. destruct (areOffsetsInitialized _); [|now injection P as <-].
      destruct (_ && _)%bool; [discriminate|]. destruct (place _ _ _ _) as (cs & t). now injection P as <-. }
    split; [rewrite X in Z; cbn [hdrSize set_nBlocks] in Z; congruence|].
    rewrite (proj1 (proj2 (proj2 SS))). exact Bg. }
  destruct Gr as (Gr1 & Gr2).
  exists m2, m3, (with_file m2 (fil mo) ((fsize (fil mo) - hdrSize m) / blockSize m)), (with_file m3 (fil mo) ((fsize (fil mo) - hdrSize m) / blockSize m)).
  split; trivial. split; trivial. split; trivial. split; trivial. split; trivial. split; trivial. split; trivial. split; trivial.
  split; [unfold openMan; rewrite Er; cbn [bind]; rewrite Fa; exact O|]. split; trivial. split; [|split; [now apply prepare_file|split; trivial]].
  unfold openMan. rewrite Rh. cbn [bind]. rewrite Fa. cbn [fil StMan.set_file hdrSize blockSize]. rewrite Gr1, Gr2. rewrite (proj2 (N.eqb_neq (blockSize m) 0)) by lia.
  rewrite X. unfold with_file. destruct (N.ltb_spec (hdrSize m) (fsize (fil mo))); [reflexivity|].
  replace (fsize (fil mo) - hdrSize m) with 0 by lia. now rewrite N.div_0_l by lia.
Qed.

Let okA : N -> Prop := fun _ => True.
Let A32 := allA_32.

Lemma with_sstart m mo m3 : 0 < blockSize m -> held m -> held m3 -> n < 2 ^ 32 -> N.of_nat na < 2 ^ 32 -> hdrSize m3 = hdrSize m -> blockSize m3 = blockSize m -> damaged m mo ->
  let m4 := with_file m3 (fil mo) ((fsize (fil mo) - hdrSize m) / blockSize m) in
  placed m4 /\ described cfg m4 /\ fits32 m4 /\ sstart cfg T nt (sopen cfg T nt m4).
Proof.
  intros Bp H H3 N32 Na32 G1 G2 (B8 & Fs & _) m4. destruct (held_shape cfg T nt m0 K n na New Zn N32 Na32 Tot m3 H3) as (P & De & Ft & _).
  assert (P4 : placed m4) by exact P. assert (D4 : described cfg m4) by exact De. split; trivial. split; trivial. split; [exact Ft|].
  apply st_open; [|exact P4| | |exact D4].
  - change (rowsPerBlock m4) with (rowsPerBlock m3). rewrite (hd_rows _ _ _ _ _ _ _ _ H3). apply not_eq_sym, N.lt_neq, Zn.
  - exact (blocks_less _ _ _ _ Bp (proj2 Fs)).
  - intros b Hb. pose proof (proj1 (blocks_whole _ _ _ Bp (proj1 Fs) b) Hb) as Q. change (hdrSize m4) with (hdrSize m3). change (blockSize m4) with (blockSize m3). change (fil m4) with (fil mo). rewrite G1, G2. clear - Q Bp. nia.
Qed.

(** every block that is in the file decodes *)
Lemma with_good m mo m3 i col b : 0 < blockSize m -> held m -> held m3 -> n < 2 ^ 32 -> N.of_nat na < 2 ^ 32 -> hdrSize m3 = hdrSize m -> blockSize m3 = blockSize m -> damaged m mo ->
  let m4 := with_file m3 (fil mo) ((fsize (fil mo) - hdrSize m) / blockSize m) in
  nth_error (columns m3) i = Some col -> b < nBlocksInFile m4 ->
  disk m4 col b = Some (File.bytes (fil mo) (fst (region m3 b col)) (N.to_nat (snd (region m3 b col)))) /\
  exists rows, dec (colenv i) n na b (File.bytes (fil mo) (fst (region m3 b col)) (N.to_nat (snd (region m3 b col)))) = rows /\ length rows = N.to_nat n /\ Forall (fun v => length v = (nPol_of (cfg i) * nChan_of (cfg i))%nat) rows.
Proof.
  intros Bp H H3 N32 Na32 G1 G2 Dm m4 Hc Hb. destruct (with_sstart m mo m3 Bp H H3 N32 Na32 G1 G2 Dm) as (P & De & Ft & _). fold m4 in P, De, Ft. destruct Dm as (B8 & Fs & _).
  assert (Z4 : rowsPerBlock m4 <> 0) by (change (rowsPerBlock m4) with (rowsPerBlock m3); rewrite (hd_rows _ _ _ _ _ _ _ _ H3); apply not_eq_sym, N.lt_neq, Zn).
  pose proof (placed_within m4 P Ft Z4 i col Hc) as Q. pose proof (placed_size m4 P Z4 i col Hc) as Sz. destruct (De i col Hc) as (D1 & D2 & D3).
  pose proof (proj1 (blocks_whole _ _ _ Bp (proj1 Fs) b) Hb) as Qd.
  change (blockSize m4) with (blockSize m3) in Q. unfold region. cbn [fst snd].
  set (y := File.bytes (fil mo) (blockSize m3 * b + hdrSize m3 + co_offset col) (N.to_nat (co_blockSize col))).
  assert (Ly : length y = N.to_nat (co_blockSize col)) by (unfold y, File.bytes; now rewrite map_length, seq_length).
  assert (Fy : BitStream.fits 8 y).
  { unfold BitStream.fits, y, File.bytes. apply Forall_forall. intros x Hx. apply in_map_iff in Hx as (k & <- & _). apply B8. }
  split.
  - unfold disk. rewrite (proj2 (N.ltb_lt _ _) Hb). unfold readCompressedData, getFileOffset. change (fil m4) with (fil mo). change (blockSize m4) with (blockSize m3). change (hdrSize m4) with (hdrSize m3).
    rewrite (proj2 (N.leb_le _ _)); [reflexivity|]. rewrite G1, G2 in *. clear - Q Qd. nia.
  - change (rowsPerBlock m4) with (rowsPerBlock m3) in Sz. change (antennaCount m4) with (antennaCount m3) in Sz. rewrite (hd_rows _ _ _ _ _ _ _ _ H3), (hd_ants _ _ _ _ _ _ _ _ H3) in Sz. rewrite (size_agrees (cfg i) col n na D1) in Sz.
    assert (Hi : (i < length (columns m0))%nat).
    { destruct (held_shape cfg T nt m0 K n na New Zn N32 Na32 Tot m3 H3) as (_ & _ & _ & <- & _). apply nth_error_Some. congruence. }
    destruct (dec_any T nt (cfg i) (L i) n na b y (Co i) Fy ltac:(rewrite Ly, Sz; lia) (Af i Hi)) as (rows & _ & Er & Lr & Fr). exists rows. split; [exact Er|now split].
Qed.

(** ** Theorems *)
Theorem damage_opens m mo nr : stored m -> damaged m mo -> exists m2 m3, openMan nr mo = Ok m2 /\ prepareMan m2 = Ok m3 /\
  columns m3 = columns m /\ rowsPerBlock m3 = n /\ antennaCount m3 = N.of_nat na /\ same_options m0 m3 /\ fil m3 = fil mo /\ forall b, b < nBlocksInFile m3 <-> whole_block m mo b.
Proof.
  intros Sd Dm. destruct (damaged_open m mo nr Sd Dm) as (m2 & m3 & m2' & m3' & N32 & Na32 & H & H3 & Cs & G1 & G2 & So & _ & _ & O & P & E & Bp).
  exists m2', m3'. split; trivial. split; trivial. rewrite E. split; [exact Cs|]. split; [exact (hd_rows _ _ _ _ _ _ _ _ H3)|]. split; [exact (hd_ants _ _ _ _ _ _ _ _ H3)|]. split; [exact So|]. split; [reflexivity|].
  intros b. exact (blocks_whole _ _ _ Bp (proj1 (proj1 (proj2 Dm))) b).
Qed.

Section read.
Context (m mo : stman) (nr : N) (m2 m3 : stman).
Hypotheses (Sd : stored m) (Dm : damaged m mo) (O : openMan nr mo = Ok m2) (P : prepareMan m2 = Ok m3).

Lemma opened_damaged : exists mh, m3 = with_file mh (fil mo) ((fsize (fil mo) - hdrSize m) / blockSize m) /\ n < 2 ^ 32 /\ N.of_nat na < 2 ^ 32 /\ held m /\ held mh /\ columns mh = columns m /\ hdrSize mh = hdrSize m /\ blockSize mh = blockSize m /\ 0 < blockSize m.
Proof.
  destruct (damaged_open m mo nr Sd Dm) as (m2' & mh & m2'' & m3' & N32 & Na32 & H & H3 & Cs & G1 & G2 & So & _ & _ & O' & P' & E & Bp).
  assert (m2'' = m2) by congruence. subst m2''. assert (m3' = m3) by congruence. subst m3'. exists mh. auto 12.
Qed.

Lemma damage_good i col r : nth_error (columns m3) i = Some col -> okA r -> r / rowsPerBlock m3 < nBlocksInFile m3 ->
  exists y, disk m3 col (r / rowsPerBlock m3) = Some y /\ nth_error (dec (colenv i) (rowsPerBlock m3) (N.to_nat (antennaCount m3)) (r / rowsPerBlock m3) y) (N.to_nat (r mod rowsPerBlock m3)) <> None.
Proof.
  intros Hc _ Hb. destruct opened_damaged as (mh & E & N32 & Na32 & H & Hh & Cs & G1 & G2 & Bp). rewrite E in *.
  change (rowsPerBlock (with_file mh ?a ?b)) with (rowsPerBlock mh) in *. change (antennaCount (with_file mh ?a ?b)) with (antennaCount mh). rewrite (hd_rows _ _ _ _ _ _ _ _ Hh), (hd_ants _ _ _ _ _ _ _ _ Hh), Nat2N.id in *.
  destruct (with_good m mo mh i col (r / n) Bp H Hh N32 Na32 G1 G2 Dm Hc Hb) as (E1 & rows & E2 & Lr & _).
  eexists. split; [exact E1|]. rewrite E2. apply nth_error_Some. rewrite Lr. pose proof (N.mod_lt r n (not_eq_sym (N.lt_neq _ _ Zn))) as Q; clear - Q; lia.
Qed.

Lemma damage_start : sstart cfg T nt (sopen cfg T nt m3) /\ fits32 m3 /\ rowsPerBlock m3 <> 0.
Proof.
  destruct opened_damaged as (mh & E & N32 & Na32 & H & Hh & Cs & G1 & G2 & Bp). rewrite E.
  destruct (with_sstart m mo mh Bp H Hh N32 Na32 G1 G2 Dm) as (_ & _ & F & S). split; trivial. split; trivial.
  change (rowsPerBlock (with_file mh ?a ?b)) with (rowsPerBlock mh). rewrite (hd_rows _ _ _ _ _ _ _ _ Hh). apply not_eq_sym, N.lt_neq, Zn.
Qed.

(** what rows of the damaged file hold *)
Lemma damage_row i r : (i < length (columns m))%nat -> (whole_block m mo (r / n) <-> held_row cfg T nt m3 i r <> None) /\ forall v, held_row cfg T nt m3 i r = Some v -> length v = (nPol_of (cfg i) * nChan_of (cfg i))%nat.
Proof.
  intros Hi. destruct opened_damaged as (mh & E & N32 & Na32 & H & Hh & Cs & G1 & G2 & Bp).
  destruct (damage_opens m mo nr Sd Dm) as (m2' & m3' & O' & P' & Cs' & Rp & Ap & _ & _ & Wb). assert (m2' = m2) by congruence. subst m2'. assert (m3' = m3) by congruence. subst m3'.
  rewrite <- Wb. destruct (nth_error (columns m3) i) as [col|] eqn:Hc; [|apply nth_error_None in Hc; rewrite Cs' in Hc; clear - Hc Hi; lia].
  unfold held_row, stored_row, held_block. rewrite Hc, Rp, Ap, Nat2N.id.
  destruct (N.lt_ge_cases (r / n) (nBlocksInFile m3)) as [Hb|Hb].
  - assert (Hc' : nth_error (columns mh) i = Some col) by (rewrite Cs, <- Cs'; exact Hc).
    pose proof (with_good m mo mh i col (r / n) Bp H Hh N32 Na32 G1 G2 Dm Hc') as (E1 & rows & E2 & Lr & Fr); [now rewrite <- E|]. rewrite <- E in E1. rewrite E1, E2.
    assert (Nn : nth_error rows (N.to_nat (r mod n)) <> None) by (apply nth_error_Some; rewrite Lr; pose proof (N.mod_lt r n (not_eq_sym (N.lt_neq _ _ Zn))) as Q; clear - Q; lia).
    split; [split; [intros _; exact Nn|intros _; exact Hb]|]. intros v Hv. rewrite Forall_forall in Fr. apply Fr. eapply nth_error_In; eauto.
  - assert (Dn : disk m3 col (r / n) = None) by (unfold disk; now rewrite (proj2 (N.ltb_ge _ _) Hb)). rewrite Dn. split; [|discriminate]. split; intros Q; exfalso; [exact (N.lt_irrefl _ (N.lt_le_trans _ _ _ Q Hb))|exact (Q eq_refl)].
Qed.

Theorem damage_runs S : sys_reading okA (sopen cfg T nt m3) S -> running S /\ man S = m3 /\ sfinishes S.
Proof.
  intros Rd. destruct damage_start as (St & F & Z). destruct (rd_reading cfg T nt _ NT HA A32 m3 okA St Z F damage_good S Rd) as (R & Em & _). split; trivial. split; trivial.
  exact (reading_finishes cfg T nt _ NT HA A32 m3 okA St Z F damage_good S Rd).
Qed.

Theorem damage_get S i r S1 S2 : sys_reading okA (sopen cfg T nt m3) S -> scall cfg T nt S S1 i (Get r) -> srun S1 S2 -> idle S2 ->
  exists a, outs (cst S2 i) = (r, a) :: outs (cst S i) /\ match held_row cfg T nt m3 i r with Some v => a = AVals v | None => a = AZero end.
Proof.
  intros Rd Sc Run Id. destruct damage_start as (St & F & Z).
  destruct (answered cfg T nt _ NT HA A32 m3 okA St Z F damage_good S i r S1 S2 Rd Sc Logic.I Run Id) as (Rd2 & a & Ea). exists a. split; trivial.
  assert (Hi : (i < length (columns m3))%nat). { destruct Sc as (Hi & _). unfold System.ncol in Hi. now rewrite (proj1 (proj2 (damage_runs S Rd))) in Hi. }
  destruct (nth_error (columns m3) i) as [col|] eqn:Hc; [|apply nth_error_None in Hc; clear - Hc Hi; lia].
  destruct (rd_answers cfg T nt _ NT HA A32 m3 okA St Z F damage_good S2 i col Rd2 Hc r a) as (_ & A1 & A2); [rewrite Ea; now left|].
  unfold held_row, stored_row, held_block. rewrite Hc. destruct (disk m3 col (r / rowsPerBlock m3)) as [y|] eqn:Ed.
  - destruct (damage_good i col r Hc Logic.I) as (y' & E1 & E2).
    { unfold disk in Ed. destruct (N.ltb_spec (r / rowsPerBlock m3) (nBlocksInFile m3)); [trivial|discriminate]. }
    assert (y' = y) by congruence. subst y'. match goal with |- match ?x with _ => _ end => destruct x as [v|] eqn:Ev end; [now apply (A2 y v)|contradiction].
  - apply A1. destruct (N.lt_ge_cases (r / rowsPerBlock m3) (nBlocksInFile m3)) as [Hb|Hb]; trivial. destruct (damage_good i col r Hc Logic.I Hb) as (y & E1 & _). congruence.
Qed.

(** blocks that were not damaged *)
Theorem damage_intact i r : (i < length (columns m))%nat -> r < K -> whole_block m mo (r / n) -> intact m mo i (r / n) -> held_row cfg T nt m3 i r = held_row cfg T nt m i r.
Proof.
  intros Hi Hr Wb It. destruct opened_damaged as (mh & E & N32 & Na32 & H & Hh & Cs & G1 & G2 & Bp).
  destruct (damage_opens m mo nr Sd Dm) as (m2' & m3' & O' & P' & Cs' & Rp & Ap & _ & _ & Wb'). assert (m2' = m2) by congruence. subst m2'. assert (m3' = m3) by congruence. subst m3'.
  apply Wb' in Wb. destruct (nth_error (columns m) i) as [col|] eqn:Hc; [|apply nth_error_None in Hc; clear - Hc Hi; lia].
  assert (Hc' : nth_error (columns mh) i = Some col) by (rewrite Cs; exact Hc). assert (Hc3 : nth_error (columns m3) i = Some col) by (rewrite Cs'; exact Hc).
  pose proof (with_good m mo mh i col (r / n) Bp H Hh N32 Na32 G1 G2 Dm Hc') as (E1 & _); [now rewrite <- E|]. rewrite <- E in E1.
  unfold held_row, stored_row, held_block. rewrite Hc, Hc3, Rp, Ap, (hd_rows _ _ _ _ _ _ _ _ H), (hd_ants _ _ _ _ _ _ _ _ H), E1.
  assert (Hb : r / n < nBlocksInFile m) by (apply (hd_blocks _ _ _ _ _ _ _ _ H); pose proof (N.mul_div_le r n (not_eq_sym (N.lt_neq _ _ Zn))) as Q; clear - Q Hr; lia).
  destruct (held_disk cfg T nt m0 K n na m i col (r / n) H Hc Hb) as (y & D1 & D2 & _). rewrite D1.
  assert (Ey : File.bytes (fil mo) (fst (region mh (r / n) col)) (N.to_nat (snd (region mh (r / n) col))) = y).
  { unfold readCompressedData, getFileOffset in D2. destruct (_ <=? _); [|destruct (_ =? _); discriminate]. injection D2 as <-. unfold region, File.bytes. cbn [fst snd]. rewrite G1, G2. apply map_ext_in.
    intros k Hk. apply in_seq in Hk. apply (It col); [exact Hc|]. unfold region. cbn [fst snd]. clear - Hk. lia. }
  now rewrite Ey.
Qed.
End read.
End damage.
