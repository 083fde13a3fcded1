(** A column is removed from a table that was written: what the others hold. *)
From Verif Require Import Base BaseLemmas Floats TimeBlockBuffer TbbSpec BitStream BytePacker File FileProofs StMan StManSpec HeaderProofs StManProofs.
From Verif Require Import StochasticEncoder TimeBlockEncoders TbeSpec Weights WeightSpec Block BlockSpec Column ColumnSpec ColumnProofs ColumnInv ColumnReach ColumnTerm ColumnData ColumnOrder ColumnWhole ColumnAmong ColumnRead
  StoredColumn StoredProofs System SystemSpec UpdateSpec SessionSpec DamageSpec SystemLow SystemCols SystemInv SystemOrder SystemEnd SystemRead SystemTotal SystemGood SystemWrite SystemTerm SystemPuts SystemFinal SystemAll UpdateBlock ColumnUpdate SystemHeld SystemUpdate SystemSessions Removal.
From Coq Require Import ZifyNat ZifyN.
Local Open Scope N_scope.
Local Arguments System.colenv : simpl never.

Lemma skip_nth {A} (l : list A) : forall i j, (i < length l)%nat -> nth_error (firstn i l ++ skipn (S i) l) j = nth_error l (skip i j).
Proof.
  induction l as [|x l IH]; intros i j Hi; [easy|]. destruct i as [|i]; [unfold skip; reflexivity|].
  destruct j as [|j]; [reflexivity|]. cbn [length] in Hi. change (nth_error (firstn i l ++ skipn (S i) l) j = nth_error (x :: l) (skip (S i) (S j))). rewrite IH by lia.
  unfold skip. change (S j <? S i)%nat with (j <? i)%nat. now destruct (j <? i)%nat.
Qed.

Section remove.
Context (cfg : nat -> coldef) (T : table) (nt : nat) (m0 : stman) (D : forall i, N -> list (data (colenv cfg T nt i))) (K : N) (L : nat -> f32) (n : N) (na : nat).
Hypothesis W : writable cfg T nt m0 D K L n na.
Notation colenv := (colenv cfg T nt).
Notation held := (held cfg T nt m0 K n na).
Notation stored := (stored_table cfg T nt m0 D K).
Let New := wr_new _ _ _ _ _ _ _ _ _ W.
Let Co := wr_columns _ _ _ _ _ _ _ _ _ W.
Let Af := wr_af _ _ _ _ _ _ _ _ _ W.
Let Tot := wr_size _ _ _ _ _ _ _ _ _ W.
Let Zn : 0 < n := Zn cfg T nt m0 D K L n na W.

Lemma held_storable m : n < 2 ^ 32 -> N.of_nat na < 2 ^ 32 -> same_options m0 m -> held m -> storable m /\ hdrSize m = hdrSize (writeHeader m).
Proof.
  intros N32 Na32 (O1 & O2 & O3 & O4 & O5 & O6 & O7) [(m1 & ws & w & k & d & I & Hk & Hw & Fw & Hin & Hf & Hn & Cs & Hh & Hs) Hr Ha _ _ _ Hg _].
  pose proof (init_storable _ _ _ _ N32 Na32 (nw_storable _ _ New) I Tot) as St1.
  assert (Nm : name m1 = name m0 /\ dataBitCount m1 = dataBitCount m0 /\ weightBitCount m1 = weightBitCount m0 /\ distribution m1 = distribution m0 /\ normalization m1 = normalization m0 /\ studentTNu m1 = studentTNu m0 /\ truncation m1 = truncation m0 /\
    hdrSize m1 = headerSize_of (name m0) (length (columns m1))).
  { unfold initializeRowsPerBlock in I. destruct (_ && _)%bool; [discriminate|]. destruct (place _ _ _ _) as (cs & t). injection I as <-. now repeat split. }
  destruct Nm as (N1 & N2 & N3 & N4 & N5 & N6 & N7 & N8). destruct (init_manager _ _ _ _ N32 Na32 I) as (M1 & M2 & _).
  assert (St : storable m).
  { destruct St1 as [A1 A2 A3 A4 A5 A6 A7 A8 A9 A10 A11]. constructor; rewrite ?Cs, ?Hs, ?Hr, ?Ha, ?O1, ?O2, ?O3, ?O4, ?O5, ?O6, ?O7, <- ?N1, <- ?N2, <- ?N3, <- ?N4, <- ?N5, <- ?N6, <- ?N7; trivial; now rewrite <- ?M1, <- ?M2. }
  split; trivial. rewrite Hh, N8, <- Cs, <- O1. reflexivity.
Qed.

Lemma removed_files m i m' : storable m -> removeColumn m i = Ok m' -> hdrSize m <= fsize (fil m) -> hdrSize m = hdrSize (writeHeader m) -> fsize (fil m') = fsize (fil m).
Proof.
  intros St R Hz Hh. destruct (removeColumn_geometry m i m' St Hh R) as (E1 & _).
  unfold removeColumn in R. destruct (Nat.ltb_spec i (length (columns m))) as [Li|]; [|discriminate].
  assert (Lr : S (length (firstn i (columns m) ++ skipn (S i) (columns m))) = length (columns m)) by (rewrite app_length, firstn_length, skipn_length; clear - Li; lia).
  assert (Fr : Forall (fun c => co_blockSize c < 2 ^ 32 /\ co_antennas c < 2 ^ 32) (firstn i (columns m) ++ skipn (S i) (columns m))).
  { pose proof (st_cols _ St) as Fc. rewrite Forall_forall in *. intros x Hx. apply Fc. apply In_nth_error in Hx as (k & Hx). rewrite skip_nth in Hx by trivial. eapply nth_error_In; eauto. }
  set (cs := firstn i (columns m) ++ skipn (S i) (columns m)) in *. clearbody cs. injection R as R. set (mc := set_columns m cs) in *.
  assert (Stc : storable mc).
  { subst mc. destruct St as [S0 ? ? ? ? ? ? ? ? ? S1]. constructor; cbn [name columns set_columns rowsPerBlock antennaCount blockSize dataBitCount weightBitCount distribution normalization studentTNu truncation]; trivial. clear - S0 Lr. lia. }
  rewrite <- R. rewrite fsize_writeHeader. pose proof (header_fits mc Stc) as Q. rewrite R in Q. change (fsize (fil mc)) with (fsize (fil m)). clear - Q E1 Hz. lia.
Qed.

Theorem removal_shifted m m3 i m4 : stored m -> opened_from m m3 -> removeColumn m3 i = Ok m4 ->
  nBlocksInFile m4 = nBlocksInFile m3 /\ (forall b, b < nBlocksInFile m3 <-> b * n < K) /\
  forall j, (j < length (columns m4))%nat -> exists col, nth_error (columns m4) j = Some col /\ nth_error (columns m3) (skip i j) = Some col /\
    forall b, b < nBlocksInFile m3 -> exists y rows, y = File.bytes (fil m3) (fst (region m3 b col) - 24) (N.to_nat (snd (region m3 b col))) /\
      rows = dec (colenv (skip i j)) n na b y /\ length rows = N.to_nat n /\ Forall (fun v => length v = (nPol_of (cfg (skip i j)) * nChan_of (cfg (skip i j)))%nat) rows /\
      forall r, r / n = b -> held_row (without i cfg) T nt m4 j r = nth_error rows (N.to_nat (r mod n)).
Proof.
  intros Sd Op R. destruct (stored_held cfg T nt m0 D K L n na W m Sd) as (N32 & Na32 & H).
  destruct (held_from cfg T nt m0 D K L n na W m m3 N32 Na32 H Op) as (H3 & Cs & Nb & So & _).
  destruct (held_storable m3 N32 Na32 So H3) as (St & Hh). destruct (removeColumn_geometry m3 i m4 St Hh R) as (E1 & E2 & E3 & E4).
  split; trivial. split; [exact (hd_blocks _ _ _ _ _ _ _ _ H3)|]. intros j Hj.
  assert (Li : (i < length (columns m3))%nat).
  { unfold removeColumn in R. destruct (Nat.ltb_spec i (length (columns m3))); [trivial|discriminate]. }
  assert (Rp : rowsPerBlock m4 = n /\ antennaCount m4 = N.of_nat na).
  { unfold removeColumn in R. destruct (_ <? _)%nat; [|discriminate]. injection R as <-. split; [exact (hd_rows _ _ _ _ _ _ _ _ H3)|exact (hd_ants _ _ _ _ _ _ _ _ H3)]. }
  destruct Rp as (Rp & Ap).
  destruct (nth_error (columns m4) j) as [col|] eqn:Hc4; [|apply nth_error_None in Hc4; clear - Hc4 Hj; lia]. exists col. split; trivial.
  assert (Hc : nth_error (columns m3) (skip i j) = Some col) by (rewrite <- skip_nth by exact Li; rewrite <- E4; exact Hc4). split; trivial.
  intros b Hb. destruct (held_disk cfg T nt m0 K n na m3 (skip i j) col b H3 Hc Hb) as (y0 & _ & Rd & _).
  assert (Hz : hdrSize m3 <= fsize (fil m3)).
  { pose proof (hd_begun _ _ _ _ _ _ _ _ H3 b Hb) as Q. clear - Q. nia. }
  pose proof (removed_files m3 i m4 St R Hz Hh) as Fs.
  set (y := File.bytes (fil m3) (fst (region m3 b col) - 24) (N.to_nat (snd (region m3 b col)))).
  assert (Dk : readCompressedData m4 b col (co_blockSize col) = Ok (Some y)).
  { assert (X : exists d, readCompressedData m4 b col (co_blockSize col) = Ok (Some d)).
    { unfold readCompressedData, getFileOffset in Rd |- *. rewrite Fs, E2. destruct (N.leb_spec (blockSize m3 * b + hdrSize m3 + co_offset col + co_blockSize col) (fsize (fil m3))) as [Q|Q]; [|destruct (_ =? _); discriminate].
      rewrite (proj2 (N.leb_le _ _)); [eauto|]. clear - Q E1. lia. }
    destruct X as (d & X). rewrite X. do 2 f_equal. refine (removeColumn_bytes m3 i m4 b col d St Hh R X _). clear - Hz. lia. }
  assert (Fy : BitStream.fits 8 y).
  { unfold BitStream.fits, y, File.bytes. apply Forall_forall. intros x Hx. apply in_map_iff in Hx as (q & <- & _). apply (hd_bytes _ _ _ _ _ _ _ _ H3). }
  assert (Ly : length y = N.to_nat (co_blockSize col)) by (unfold y, File.bytes; now rewrite map_length, seq_length).
  destruct (held_shape cfg T nt m0 K n na New Zn N32 Na32 Tot m3 H3) as (P & De & _ & Lc & _). destruct (De _ _ Hc) as (D1 & _).
  assert (Z3 : rowsPerBlock m3 <> 0) by (rewrite (hd_rows _ _ _ _ _ _ _ _ H3); apply not_eq_sym, N.lt_neq, Zn).
  pose proof (placed_size m3 P Z3 _ _ Hc) as Sz. rewrite (hd_rows _ _ _ _ _ _ _ _ H3), (hd_ants _ _ _ _ _ _ _ _ H3), (size_agrees (cfg (skip i j)) col n na D1) in Sz.
  assert (Hi : (skip i j < length (columns m0))%nat) by (rewrite <- Lc; apply nth_error_Some; congruence).
  destruct (dec_any T nt (cfg (skip i j)) (L (skip i j)) n na b y (Co _) Fy ltac:(rewrite Ly, Sz; clear; lia) (Af _ Hi)) as (rows & _ & Er & Lr & Fr).
  exists y, rows. split; [reflexivity|]. split; [symmetry; exact Er|]. split; trivial. split; trivial. intros r Hr.
  unfold held_row, stored_row, held_block. rewrite Hc4, Rp, Ap, Nat2N.id, Hr. unfold disk. rewrite E3, (proj2 (N.ltb_lt _ _) Hb), Dk.
  rewrite <- Er. reflexivity.
Qed.
End remove.
