(** Facts about the columns of a manager: sizes, decoded rows, geometry. *)
From Verif Require Import Base BaseLemmas Floats TimeBlockBuffer BytePacker BitStream File StMan StManSpec StManProofs.
From Verif Require Import StochasticEncoder TimeBlockEncoders TbeSpec Weights Block BlockSpec BlockProofs Column ColumnSpec ColumnProofs ColumnInv StoredColumn StoredProofs System SystemSpec.
From Coq Require Import ZifyNat ZifyN.
Local Open Scope N_scope.

(** ** Sizes *)
Lemma size_agrees c col n na : describes c col ->
  StMan.CalculateBlockSize col n (N.of_nat na) = N.of_nat (Block.CalculateBlockSize (codec_of c) (bits_of c) (N.to_nat n) na).
Proof.
  intros (K & P & C & B). unfold StMan.CalculateBlockSize, Block.CalculateBlockSize, binarySize, nMetaFloats, nSymbols. rewrite K, P, C, B.
  rewrite Nat2N.inj_add, Nat2N.inj_mul, N2Nat.id. f_equal.
  - f_equal. destruct c; cbn; unfold row_MetaDataCount, rf_MetaDataCount, af_MetaDataCount; lia.
  - f_equal. destruct c; cbn; unfold SymbolCount; lia.
Qed.

Lemma size_pos c col n na : describes c col -> (0 < nPol_of c)%nat -> (0 < nChan_of c)%nat -> n <> 0 -> 0 < StMan.CalculateBlockSize col n na.
Proof.
  intros (K & P & C & B) Hp Hc Hn. unfold StMan.CalculateBlockSize. apply N.lt_le_trans with (4 * StMan.metaDataFloatCount (co_kind col) n (co_nPol col) (co_nChan col) na); [|lia].
  apply N.mul_pos_pos; [lia|]. rewrite K, P, C. destruct c; cbn in *; nia.
Qed.

Lemma enc_length c T nt rp na (x : tbb (sample (codec_of c))) y :
  enc (stored_column (codec_of c) (af_of c) (bits_of c) (nPol_of c * nChan_of c) T nt) rp na x y ->
  length y = Block.CalculateBlockSize (codec_of c) (bits_of c) (N.to_nat rp) na.
Proof.
  intros (_ & g & packed & sym & bufs & _ & E). unfold encodeAndWrite in E. destruct (_ <? _)%nat; [discriminate|].
  destruct (encode _ _ _ _ _ _) as [(m & s)| |]; cbn [bind] in E; try discriminate. destruct (pack _ _ _ _) as [bin| |]; cbn [bind] in E; try discriminate.
  unfold rds in E. destruct (_ <=? _)%nat eqn:L; cbn [bind] in E; try discriminate. injection E as <- _. apply Nat.leb_le in L.
  cbn [skipn]. rewrite firstn_length_le by (cbn in L; exact L). reflexivity.
Qed.

(** ** Decoded rows *)
Lemma concat_const {A} (l : list (list A)) n : Forall (fun v => length v = n) l -> length (concat l) = (length l * n)%nat.
Proof. induction 1 as [|v l H _ IH]; cbn; trivial. rewrite app_length, IH, H. reflexivity. Qed.

Lemma decode_length c f sym row a1 a2 out : decode (codec_of c) f sym row a1 a2 = Ok out -> length out = (nPol_of c * nChan_of c)%nat.
Proof.
  assert (X : forall e n per s r g o, decode_row e n per s r g = Ok o -> length o = n).
  { intros e n per s r g o H. unfold decode_row in H. apply mapM_length in H. now rewrite seq_length in H. }
  destruct c as [e p n b|e p n b|e p n b|p n b]; cbn.
  - unfold row_decode. apply X.
  - unfold rf_decode. apply X.
  - unfold af_decode. destruct (mapM _ _); cbn [bind]; try discriminate. apply X.
  - unfold DecodeWeights. destruct (mapM _ _) as [vs| |] eqn:E; cbn [bind]; try discriminate. intros [= <-]. pose proof (mapM_length _ _ _ E) as L.
    rewrite seq_length in L. rewrite (concat_const vs p), L; [apply Nat.mul_comm|]. apply mapM_inv in E. clear L.
    induction E as [|a v l l' H _ IH]; constructor; trivial. destruct (rd _ _); cbn [bind] in H; try discriminate. injection H as <-. apply repeat_length.
Qed.

Lemma load_rows c bits nRows nAnt ants block sym rows : loadBlock (codec_of c) bits nRows nAnt ants block sym = Ok rows ->
  length rows = nRows /\ Forall (fun v => length v = (nPol_of c * nChan_of c)%nat) rows.
Proof.
  intros H. split; [eapply load_length; eauto|]. unfold loadBlock in H. destruct (_ <? _)%nat; [discriminate|].
  destruct (unpack _ _ _ _); try discriminate. cbn [bind] in H. destruct (initializeDecode _ _ _ _); try discriminate. cbn [bind] in H.
  apply mapM_inv in H. revert H. generalize (seq 0 nRows). intros l H. induction H as [|r v l l' H _ IH]; constructor; trivial. eapply decode_length; eauto.
Qed.

(** ** Geometry *)
Definition same_shape (c c' : column) : Prop := co_kind c' = co_kind c /\ co_nPol c' = co_nPol c /\ co_nChan c' = co_nChan c /\ co_bits c' = co_bits c.

Lemma place_shapes nrow nant : forall cs off, Forall2 same_shape cs (fst (place nrow nant off cs)).
Proof.
  induction cs as [|c cs IH]; intros off; cbn [place]; [constructor|]. specialize (IH (u32 (off + StMan.CalculateBlockSize c nrow nant))).
  destruct (place _ _ _ cs) as (t & n). cbn [fst] in *. constructor; trivial. now repeat split.
Qed.

Lemma place_sizes nrow nant : forall cs off i c, nth_error (fst (place nrow nant off cs)) i = Some c -> co_blockSize c = StMan.CalculateBlockSize c nrow nant.
Proof.
  induction cs as [|c0 cs IH]; intros off i c; cbn [place]; [destruct i; discriminate|]. specialize (IH (u32 (off + StMan.CalculateBlockSize c0 nrow nant))).
  destruct (place _ _ _ cs) as (t & n). cbn [fst] in *. destruct i as [|i]; cbn; [|apply IH]. intros [= <-]. reflexivity.
Qed.

Lemma shape_describes c col col' : same_shape col col' -> describes c col -> describes c col'.
Proof. intros (H1 & H2 & H3 & H4) (K & P & C & B). unfold describes. now rewrite H1, H2, H3, H4. Qed.

Lemma init_manager m n na m' : n < 2 ^ 32 -> na < 2 ^ 32 -> initializeRowsPerBlock m n na true = Ok m' ->
  rowsPerBlock m' = n /\ antennaCount m' = na /\ nBlocksInFile m' = nBlocksInFile m /\ Forall2 same_shape (columns m) (columns m') /\ placed m'.
Proof.
  intros Hn Ha. unfold initializeRowsPerBlock. destruct (_ && _)%bool; [discriminate|]. unfold u32. rewrite !N.mod_small by trivial.
  pose proof (place_shapes n na (columns m) 0) as Sh. pose proof (place_shape n na (columns m) (fst (place n na 0 (columns m))) 0) as Ps.
  destruct (place n na 0 (columns m)) as (cs & t) eqn:Ep. cbn [fst] in *. intros [= <-]. cbn. do 4 (split; [easy|]). intros _. cbn. rewrite Ps by exact Sh. now split.
Qed.

Lemma init_no_throw m n na : rowsPerBlock m = 0 -> exists m', initializeRowsPerBlock m n na true = Ok m'.
Proof.
  intros Z. unfold initializeRowsPerBlock, areOffsetsInitialized. rewrite Z. cbn [N.eqb negb andb]. destruct (place _ _ _ _) as (cs & t). eauto.
Qed.

Section placed.
Variables (m : stman).
Hypotheses (P : placed m) (F : fits32 m) (Z : rowsPerBlock m <> 0).

Lemma placed_size i c : nth_error (columns m) i = Some c -> co_blockSize c = StMan.CalculateBlockSize c (rowsPerBlock m) (antennaCount m).
Proof. clear F. intros H. destruct (P Z) as (_ & _ & E). apply (place_sizes _ _ (columns m) 0 i). now rewrite E. Qed.

Lemma placed_within i c : nth_error (columns m) i = Some c -> co_offset c + co_blockSize c <= blockSize m.
Proof.
  intros H. destruct (P Z) as (_ & _ & E). pose proof (place_ok (rowsPerBlock m) (antennaCount m) (columns m) 0) as Q. rewrite E in Q.
  destruct Q as (_ & _ & Q & _); [rewrite N.add_0_l; now apply F|]. now apply (Q i c).
Qed.

Lemma placed_disjoint b b' i j c c' : nth_error (columns m) i = Some c -> nth_error (columns m) j = Some c' -> (b, i) <> (b', j) ->
  disjoint (region m b c) (region m b' c').
Proof.
  intros Hi Hj Hne. destruct (P Z) as (_ & _ & E). pose proof (place_ok (rowsPerBlock m) (antennaCount m) (columns m) 0) as Q. rewrite E in Q.
  destruct Q as (_ & _ & Hin & Hlt & _); [rewrite N.add_0_l; now apply F|].
  pose proof (Hin i c Hi) as Ic. pose proof (Hin j c' Hj) as Jc. unfold disjoint, region. cbn [fst snd].
  destruct (N.lt_trichotomy b b') as [L|[->|L]].
  - left. apply region_arith; [lia|trivial].
  - assert (Nij : i <> j) by congruence. destruct (Nat.lt_ge_cases i j) as [L|L].
    + left. pose proof (Hlt i j c c' L Hi Hj). lia.
    + right. assert (L' : (j < i)%nat) by lia. pose proof (Hlt j i c' c L' Hj Hi). lia.
  - right. apply region_arith; [lia|trivial].
Qed.

Lemma read_ok b i c : nth_error (columns m) i = Some c -> b < nBlocksInFile m ->
  begun m ->
  exists r, readCompressedData m b c (co_blockSize c) = Ok r /\ forall y, r = Some y -> len y = co_blockSize c.
Proof.
  intros H Hb Sz. pose proof (placed_within i c H) as W. unfold readCompressedData, getFileOffset.
  destruct (N.leb_spec (blockSize m * b + hdrSize m + co_offset c + co_blockSize c) (fsize (fil m))) as [L|L].
  - eexists. split; [reflexivity|]. intros y [= <-]. unfold len, File.bytes. rewrite map_length, seq_length. lia.
  - destruct (N.eqb_spec (b + 1) (nBlocksInFile m)) as [E|E]; [eexists; split; [reflexivity|discriminate]|]. exfalso.
    specialize (Sz (b + 1)). lia.
Qed.
End placed.

(** ** Instructions that do not concern the manager *)
Lemma exec_plain {e} (s s' : state e) x c : plain x = true -> exec None s x c = Some s' ->
  file s' = file s /\ nblk s' = nblk s /\ rpb s' = rpb s /\ nant s' = nant s /\ (closed s = true -> closed s' = true) /\ (closed s' = true -> closed s = true \/ x = IShutdown).
Proof.
  intros P E. assert (PB : forall (t : state e) r row d, file (put_buffer t r row d) = file t /\ nblk (put_buffer t r row d) = nblk t /\ rpb (put_buffer t r row d) = rpb t /\
    nant (put_buffer t r row d) = nant t /\ closed (put_buffer t r row d) = closed t).
  { intros. unfold put_buffer. destruct (SetData _ _ _ _ _ _); now repeat split. }
  destruct x; try discriminate; cbn [exec] in E; repeat match type of E with
    | (if ?b then _ else _) = Some _ => destruct b eqn:?
    | match match ?b with _ => _ end with _ => _ end = Some _ => destruct b
    | match ?b with _ => _ end = Some _ => destruct b
    end; try discriminate; injection E as <-; try (now repeat split; auto);
    try (match goal with |- context [put_buffer ?t ?r ?row ?d] => destruct (PB t r row d) as (-> & -> & -> & -> & ->) end; cbn; now repeat split; auto).
  all: repeat match goal with |- context [if ?b then _ else _] => destruct b end; now repeat split; auto.
Qed.

Lemma exec_junk {e} j (s : state e) x c : plain x = true -> exec j s x c = exec None s x c.
Proof. destruct x; try discriminate; reflexivity. Qed.

Lemma exec_set {e} j (s s' : state e) n m c : exec j s (ISetRpb n m) c = Some s' ->
  file s' = file s /\ nblk s' = nblk s /\ rpb s' = n /\ nant s' = m /\ closed s' = closed s /\ code s' = c /\ status s' = status s.
Proof. cbn [exec]. intros [= <-]. destruct (_ && _); now repeat split. Qed.

Lemma wexec_fields {e} y (s s' : state e) w w' k : wexec y s w = Some (s', w') ->
  let t := set_worker s' k w' in rpb t = rpb s /\ nant t = nant s /\ closed t = closed s /\ code t = code s /\ cur t = cur s /\ tb t = tb s /\ last t = last s /\
  (status s = Running -> status t = Running -> match w with
   | WPicked b x => encodable e (rpb s) (nant s) x = true /\ file t = upd_map (file s) b y /\ nblk t = (if nblk s <=? b then (b + 1) mod 2 ^ 64 else nblk s)
   | _ => file t = file s /\ nblk t = nblk s end).
Proof.
  intros E. destruct w as [| | |b x|b|]; cbn [wexec] in E; unfold pick in E;
  repeat match type of E with
  | (if ?b then _ else _) = Some _ => destruct b eqn:?
  | match match ?b with _ => _ end with _ => _ end = Some _ => destruct b
  | match ?b with _ => _ end = Some _ => destruct b
  end; try discriminate; injection E as <- <-; unfold set_worker, notify; sm; repeat split; intros; try discriminate; trivial.
Qed.
