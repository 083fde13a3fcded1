(** A table that was written and closed, possibly changed since: what its file holds, and
    that it can be opened again. *)
From Verif Require Import Base BaseLemmas Floats TimeBlockBuffer TbbSpec BitStream BytePacker File FileProofs StMan StManSpec HeaderProofs StManProofs.
From Verif Require Import StochasticEncoder TimeBlockEncoders TbeSpec Weights WeightSpec Block BlockSpec Column ColumnSpec ColumnProofs ColumnInv ColumnReach ColumnTerm ColumnData ColumnOrder ColumnWhole ColumnAmong ColumnRead
  StoredColumn StoredProofs System SystemSpec UpdateSpec SessionSpec SystemLow SystemCols SystemInv SystemOrder SystemEnd SystemRead SystemTotal SystemGood SystemWrite SystemPuts SystemFinal SystemAll UpdateBlock.
From Coq Require Import ZifyNat ZifyN.
Local Open Scope N_scope.
Local Arguments System.colenv : simpl never.

Lemma read_same m m' b col k : fil m' = fil m -> nBlocksInFile m' = nBlocksInFile m -> hdrSize m' = hdrSize m -> blockSize m' = blockSize m ->
  readCompressedData m' b col k = readCompressedData m b col k.
Proof. intros F B H S. unfold readCompressedData, getFileOffset. now rewrite F, B, H, S. Qed.

Lemma write_same m m' b col y : fil m' = fil m -> hdrSize m' = hdrSize m -> blockSize m' = blockSize m -> fil (writeCompressedData m' b col y) = fil (writeCompressedData m b col y).
Proof.
  intros F H S. unfold writeCompressedData, getFileOffset. destruct (_ <=? b), (nBlocksInFile m <=? b); cbn [fil StMan.set_file set_nBlocks hdrSize blockSize]; now rewrite F, H, S.
Qed.

Section held.
Context (cfg : nat -> coldef) (T : table) (nt : nat).
Context (m0 : stman) (K : N) (n : N) (na : nat).
Hypotheses (New : new_table cfg m0) (Zn : 0 < n) (N32 : n < 2 ^ 32) (Na32 : N.of_nat na < 2 ^ 32)
  (Tot : total n (N.of_nat na) (columns m0) < 2 ^ 32).

Record held (m : stman) : Prop := {
  hd_init : exists m1 ws w k d, initializeRowsPerBlock m0 n (N.of_nat na) true = Ok m1 /\ S k = length (columns m1) /\ nth_error (columns m1) k = Some w /\
    Forall (fun x => In (snd (fst x)) (columns m1) /\ len (snd x) = co_blockSize (snd (fst x)) /\ snd x <> []) ws /\
    In (nBlocksInFile m - 1, w, d) ws /\ fil m = fil (writes m1 ws) /\ nBlocksInFile m = nBlocksInFile (writes m1 ws) /\
    columns m = columns m1 /\ hdrSize m = hdrSize m1 /\ blockSize m = blockSize m1;
  hd_rows : rowsPerBlock m = n;
  hd_ants : antennaCount m = N.of_nat na;
  hd_blocks : forall b, b < nBlocksInFile m <-> b * n < K;
  hd_bytes : bytes8 (fil m);
  hd_small : nBlocksInFile m < 2 ^ 64;
  hd_begun : begun m;
  hd_data : forall i col b, nth_error (columns m) i = Some col -> b < nBlocksInFile m ->
    exists y, readCompressedData m b col (co_blockSize col) = Ok (Some y) /\ sound T nt (cfg i) n na y }.

Lemma held_shape m : held m -> placed m /\ described cfg m /\ fits32 m /\ length (columns m) = length (columns m0) /\ Forall2 same_shape (columns m0) (columns m).
Proof.
  intros [(m1 & ws & w & k & d & I & _ & _ & _ & _ & _ & _ & Cs & Hh & Hb) Hr Ha _ _ _ _ _].
  destruct (init_manager _ _ _ _ N32 Na32 I) as (M1 & M2 & M3 & M4 & M5). rewrite <- Cs in M4.
  split; [|split; [|split; [|split]]]; trivial.
  - intros _. destruct (M5 ltac:(lia)) as (P1 & P2 & P3). rewrite Hr, Ha, Cs, Hb. rewrite M1, M2 in P3. auto.
  - intros i col Hc. destruct (shape_nth _ _ M4 i col Hc) as (c & Hc0 & Sh). destruct (nw_described _ _ New i c Hc0) as (D1 & D2). split; trivial. eapply shape_describes; eauto.
  - intros _. rewrite Hr, Ha, (shape_total _ _ _ _ M4). exact Tot.
  - apply (shape_length _ _ M4).
Qed.

Lemma held_start m : held m -> sstart cfg T nt (sopen cfg T nt m).
Proof. intros H. destruct (held_shape m H) as (P & D & _). destruct H. constructor; trivial. lia. Qed.

Lemma held_disk m i col b : held m -> nth_error (columns m) i = Some col -> b < nBlocksInFile m ->
  exists y, disk m col b = Some y /\ readCompressedData m b col (co_blockSize col) = Ok (Some y) /\ sound T nt (cfg i) n na y.
Proof.
  intros H Hc Hb. destruct (hd_data m H i col b Hc Hb) as (y & Er & Sy). exists y. split; [|now split]. unfold disk. rewrite (proj2 (N.ltb_lt _ _) Hb). now rewrite Er.
Qed.

(** rewriting a block *)
Lemma held_write m i col b y : held m -> nth_error (columns m) i = Some col -> b < nBlocksInFile m -> len y = co_blockSize col -> BitStream.fits 8 y -> sound T nt (cfg i) n na y ->
  held (writeCompressedData m b col y).
Proof.
  intros H Hc Hb Ly Fy Sy. pose proof H as [(m1 & ws & w & k & d & I & Hk & Hw & Fw & Hin & Hf & Hn & Cs & Hh & Hs) Hr Ha Bl B8 Sm Bg Dt].
  destruct (held_shape m H) as (P & De & Ft & Lc & _). assert (Zm : rowsPerBlock m <> 0) by lia.
  destruct (write_settings m b col y) as (W1 & W2 & W3 & W4 & W5 & W6). assert (Nb : nBlocksInFile (writeCompressedData m b col y) = nBlocksInFile m) by (rewrite W6; lia).
  assert (Ny : y <> []).
  { intros ->. change (len []) with 0 in Ly. destruct (De i col Hc) as (D1 & D2 & D3). pose proof (size_pos (cfg i) col (rowsPerBlock m) (antennaCount m) D1 D2 D3 Zm). rewrite <- (placed_size m P Zm i col Hc) in H0. lia. }
  destruct (StManProofs.writes_settings ws m1) as (Ws0 & Ws1 & Ws2 & Ws3).
  constructor; try rewrite Nb; trivial; try congruence.
  - exists m1, (ws ++ [(b, col, y)]), w, k, d. split; trivial. split; trivial. split; trivial. split; [|split; [|split; [|split; [|split; [|split]]]]]; try congruence.
    + apply Forall_app. split; trivial. constructor; [|constructor]. cbn [fst snd]. split; [|now split]. rewrite <- Cs. eapply nth_error_In; eauto.
    + apply in_or_app. left. exact Hin.
    + unfold writes. rewrite fold_left_app. cbn [fold_left write1]. apply write_same; [exact Hf|rewrite Hh; now symmetry|rewrite Hs; now symmetry].
    + unfold writes. rewrite fold_left_app. cbn [fold_left write1]. fold (writes m1 ws). destruct (write_settings (writes m1 ws) b col y) as (_ & _ & _ & _ & _ & ->). rewrite <- Hn. lia.
  - rewrite writeCompressed_fil. now apply write8.
  - intros b' Hb'. rewrite Nb in Hb'. specialize (Bg b' Hb'). rewrite W4, W3, writeCompressed_fil. revert Bg. unfold fwrite. destruct y; [easy|]. cbn [fsize]. intros Bg. lia.
  - intros j cj b' Hj Hb'. rewrite W5 in Hj. destruct (Nat.eq_dec j i) as [->|Nj].
    + assert (cj = col) by congruence. subst cj. destruct (N.eq_dec b' b) as [->|N'].
      * exists y. split; [now apply read_write_same|exact Sy].
      * destruct (Dt i col b' Hc Hb') as (z & Ez & Sz). exists z. split; trivial. apply read_write_other; [|lia|trivial]. apply (placed_disjoint m P Ft Zm b b' i i); trivial. congruence.
    + destruct (Dt j cj b' Hj Hb') as (z & Ez & Sz). exists z. split; trivial. apply read_write_other; [|lia|trivial]. apply (placed_disjoint m P Ft Zm b b' i j); trivial. congruence.
Qed.

(** opening it again *)
Lemma held_open m mo nr : held m -> reopens m mo -> exists m2 m3, openMan nr mo = Ok m2 /\ prepareMan m2 = Ok m3 /\ held m3 /\
  columns m3 = columns m /\ fil m3 = fil m /\ nBlocksInFile m3 = nBlocksInFile m /\ same_options m0 m3 /\ (forall b col k, readCompressedData m3 b col k = readCompressedData m b col k).
Proof.
  intros H (Ro1 & Ro2). pose proof H as [(m1 & ws & w & k & d & I & Hk & Hw & Fw & Hin & Hf & Hn & Cs & Hh & Hs) Hr Ha Bl B8 Sm Bg Dt].
  destruct (init_manager _ _ _ _ N32 Na32 I) as (M1 & M2 & M3 & M4 & M5).
  assert (St1 : storable m1) by exact (init_storable _ _ _ _ N32 Na32 (nw_storable _ _ New) I Tot).
  assert (Pos : 0 < co_blockSize w).
  { rewrite (placed_size m1 M5 ltac:(lia) k w Hw), M1, M2. destruct (shape_nth _ _ M4 k w Hw) as (c & Hc & Sh). destruct (nw_described _ _ New k c Hc) as (D1 & D2 & D3).
    apply (size_pos (cfg k)); trivial; [eapply shape_describes; eauto|lia]. }
  assert (Nws : ws <> []) by (intros ->; destruct Hin).
  assert (Ff : fsize (fil m0) <= hdrSize m1) by (rewrite (init_hdr _ _ _ _ (nw_storable _ _ New) I); exact (nw_file _ _ New)).
  assert (Sh : Forall2 (fun c c' => co_kind c' = co_kind c /\ co_nPol c' = co_nPol c /\ co_nChan c' = co_nChan c) (columns m0) (columns mo)).
  { rewrite Cs in Ro2. clear - M4 Ro2. revert Ro2. generalize (columns mo). induction M4 as [|c c' cs cs' (Q1 & Q2 & Q3 & Q4) _ IH]; intros l H; inversion H as [|? ? ? ? (G1 & G2 & G3) Q]; subst; constructor; auto. rewrite G1, G2, G3. auto. }
  rewrite Hf in Ro1.
  destruct (reopen_geometry m0 n (N.of_nat na) w k m1 ws mo nr I St1 (conj Zn N32) Na32 Tot (nw_blocks _ _ New) Ff Hk Hw Pos Fw Nws (nw_dbits _ _ New) (nw_wbits _ _ New) (nw_set _ _ New) Sh Ro1)
    as (m2 & m3 & O & P & SS & Cs3 & Fi & Nb & _).
  assert (Lo : length (columns mo) = length (columns m1)).
  { rewrite Cs in Ro2. clear - Ro2. induction Ro2; cbn; congruence. }
  destruct (reopen_blocks m0 n (N.of_nat na) w k m1 ws mo nr I St1 N32 Na32 Tot (nw_blocks _ _ New) Ff Hk Hw Pos Fw Nws Lo Ro1) as (m2' & O' & _ & _ & B1 & _).
  assert (m2' = m2) by congruence. subst m2'.
  assert (Nb3 : nBlocksInFile m3 = nBlocksInFile m) by (rewrite Nb, B1; [now symmetry|]; exists d; now rewrite <- Hn).
  assert (SS' : same_options m0 m3) by (eapply init_options; eauto). destruct SS as (S1 & S2 & S3 & S4 & _).
  assert (Fm : fil m3 = fil m) by (rewrite Fi, Ro1; now symmetry).
  assert (Rm : forall b col k0, readCompressedData m3 b col k0 = readCompressedData m b col k0) by (intros; apply read_same; congruence).
  exists m2, m3. split; trivial. split; trivial. split; [|split; [congruence|auto]].
  constructor; try rewrite Nb3; try rewrite Fm; trivial; try congruence.
  - exists m1, ws, w, k, d. rewrite S3, S4, Cs3. auto 12.
  - intros b Hb. rewrite Nb3 in Hb. specialize (Bg b Hb). rewrite Fm, S3, S4. now rewrite <- Hh, <- Hs.
  - intros i col b Hc Hb. rewrite Rm. apply Dt; trivial. congruence.
Qed.
End held.
