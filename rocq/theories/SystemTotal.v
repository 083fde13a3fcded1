(** Decoding a block never fails, whatever its bytes; what is written are bytes. *)
From Verif Require Import Base BaseLemmas Floats TimeBlockBuffer BytePacker BitStream BytePackerProofs BytePackerWhole BytePackerTop File FileProofs StMan StManSpec StManProofs.
From Verif Require Import StochasticEncoder EncSpec StochasticEncoderProofs TimeBlockEncoders TbeSpec TbeLoops TbeMore AfSpec AfCode AfMore Weights WeightSpec WeightProofs WeightBlockProofs Block BlockSpec BlockProofs BlockEnc Column ColumnSpec StoredColumn StoredProofs System SystemSpec.
From Coq Require Import ZifyNat ZifyN.

(** ** Packing writes bytes *)
Definition stays8 (m : M) : Prop := forall p q, m p = Ok q -> fits 8 (dl p) -> fits 8 (dr p) -> fits 8 (dl q) /\ fits 8 (dr q).

Lemma stays_skip : stays8 skip.
Proof. intros p q [= <-]. auto. Qed.
Lemma stays_seq a b : stays8 a -> stays8 b -> stays8 (a ;; b).
Proof. intros Ha Hb p q. unfold seqM. destruct (a p) as [r| |] eqn:E; try discriminate. cbn [bind]. intros Eq H1 H2. destruct (Ha p r E H1 H2). eapply Hb; eauto. Qed.
Lemma fits_cons w x l : fits w (x :: l) <-> (x < 2 ^ w)%N /\ fits w l.
Proof. unfold fits. split; [intros H; inversion H; auto|intros []; now constructor]. Qed.
Lemma stays_st e : stays8 (st 8 e).
Proof.
  intros p q. unfold st. destruct (sr p); try discriminate. destruct (dr p); try discriminate. intros [= <-]. cbn [dl dr]. rewrite !fits_cons. intros H1 (_ & H2).
  split; trivial. split; trivial. now apply N.mod_lt.
Qed.
Lemma stays_orst e : stays8 (orst 8 e).
Proof.
  intros p q. unfold orst. destruct (sr p); try discriminate. destruct (dr p); try discriminate. intros [= <-]. cbn [dl dr]. rewrite !fits_cons. intros H1 (_ & H2).
  split; trivial. split; trivial. now apply N.mod_lt.
Qed.
Lemma stays_incS : stays8 incS.
Proof. intros p q. unfold incS. destruct (sr p); try discriminate. intros [= <-]. auto. Qed.
Lemma stays_incD : stays8 incD.
Proof. intros p q. unfold incD. destruct (dr p) eqn:E; try discriminate. intros [= <-]. cbn [dl dr]. rewrite !fits_cons. tauto. Qed.
Lemma stays_loop n b : stays8 b -> stays8 (loop n b).
Proof. intros H. induction n; [apply stays_skip|]. cbn [loop]. now apply stays_seq. Qed.
Lemma stays_if pos n b : stays8 b -> stays8 (ifmore pos n b).
Proof. unfold ifmore. destruct (Nat.eqb _ _); trivial. intros _. apply stays_skip. Qed.
Lemma stays_throw : stays8 (fun _ => Throw).
Proof. intros p q. discriminate. Qed.

Lemma stays_pack bits n : stays8 (packM bits n).
Proof.
  assert (X : stays8 (pack2 n) /\ stays8 (pack3 n) /\ stays8 (pack4 n) /\ stays8 (pack6 n) /\ stays8 (pack8 n) /\ stays8 (pack10 n) /\ stays8 (pack12 n) /\ stays8 (pack16 n)).
  { repeat apply conj; unfold pack2, pack3, pack4, pack6, pack8, pack10, pack12, pack16, pack2_group, pack2_tail, pack3_group, pack3_tail, pack4_group, pack4_tail, pack6_group, pack6_tail, pack10_group, pack10_tail, pack12_group, pack12_tail; cbv zeta;
    repeat first [apply stays_seq|apply stays_st|apply stays_orst|apply stays_incS|apply stays_incD|apply stays_if|apply stays_loop|apply stays_skip]. }
  destruct X as (X2 & X3 & X4 & X6 & X8 & X10 & X12 & X16). unfold packM.
  destruct bits as [|p]; [apply stays_throw|]. do 5 (destruct p; trivial; try apply stays_throw).
Qed.
Lemma pack_fits bits dest sym n y : pack bits dest sym n = Ok y -> fits 8 dest -> fits 8 y.
Proof.
  unfold pack, run. destruct (packM _ _ _) as [q| |] eqn:E; try discriminate. cbn [bind]. intros [= <-] H. destruct (stays_pack bits n _ _ E) as (H1 & H2); [constructor|exact H|].
  apply fits_app. split; trivial. unfold fits in *. rewrite Forall_forall in *. intros v Hv. apply H1. now apply in_rev.
Qed.

Lemma enc_fits c isAf bits nS T nt rp na x y : enc (stored_column c isAf bits nS T nt) rp na x y -> fits 8 y.
Proof.
  intros (_ & g & packed & sym & bufs & (_ & _ & Fp & _) & E). unfold encodeAndWrite in E. destruct (_ <? _); [discriminate|].
  destruct (encode _ _ _ _ _ _) as [(m & s)| |]; cbn [bind] in E; try discriminate. destruct (pack _ _ _ _) as [bin| |] eqn:P; cbn [bind] in E; try discriminate.
  unfold rds in E. destruct (_ <=? _); cbn [bind] in E; try discriminate. injection E as <- _. cbn [skipn].
  assert (F : fits 8 (concat (map float_bytes m) ++ bin)).
  { apply fits_app. split; [apply bytes_fits|]. eapply pack_fits; eauto. unfold fits in *. rewrite <- (firstn_skipn (4 * nMetaFloats c (N.to_nat rp) na) packed) in Fp. now apply Forall_app in Fp. }
  revert F. generalize (concat (map float_bytes m) ++ bin). intros l F. unfold fits in *. rewrite <- (firstn_skipn (CalculateBlockSize c bits (N.to_nat rp) na) l) in F. now apply Forall_app in F.
Qed.

(** ** Any bytes are decoded *)
Lemma mapM_total {A B} (f : A -> res B) l : (forall a, In a l -> exists b, f a = Ok b) -> exists l', mapM f l = Ok l'.
Proof.
  intros H. destruct (mapM_ok f (fun _ _ => True) l) as (l' & E & _); [|eauto]. intros a Ha. destruct (H a Ha) as (b & E). exists b. now split.
Qed.

Lemma load_total c L nRows nAnt ants block sym : coldef_ok c L -> fits 8 block -> length block = Block.CalculateBlockSize (codec_of c) (bits_of c) nRows nAnt ->
  length sym = nSymbols (codec_of c) nRows -> (af_of c = true -> forall r, r < nRows -> fst (ants r) < nAnt /\ snd (ants r) < nAnt) ->
  exists rows, loadBlock (codec_of c) (bits_of c) nRows nAnt ants block sym = Ok rows.
Proof.
  intros Co F L0 L1 Ha. unfold loadBlock. replace (length block <? _) with false by (symmetry; apply Nat.ltb_ge; rewrite L0; unfold CalculateBlockSize; lia).
  assert (Sb : supported (bits_of c)) by (destruct c; cbn in Co |- *; [apply Co..|exact Co]).
  rewrite unpack_layout_lem; trivial.
  2:{ lia. }
  2:{ rewrite skipn_length, L0. unfold CalculateBlockSize, binarySize. rewrite Nat.add_comm, Nat.add_sub. apply Nat.le_refl. }
  2:{ unfold fits in *. rewrite <- (firstn_skipn (4 * nMetaFloats (codec_of c) nRows nAnt) block) in F. now apply Forall_app in F. }
  cbn [bind]. rewrite (skipn_all2 sym) by (rewrite L1; apply Nat.le_refl). rewrite app_nil_r.
  set (s' := digits _ _ _). assert (Ls : length s' = nSymbols (codec_of c) nRows) by apply digits_length. assert (Fs : fits (bits_of c) s') by apply digits_fits. clearbody s'.
  set (meta := floats _ _). assert (Lm : length meta = nMetaFloats (codec_of c) nRows nAnt) by apply floats_length. clearbody meta. clear F L0 block L1 sym.
  unfold nSymbols, nMetaFloats in *.
  destruct c as [e p n b|e p n b|e p n b|p n b]; cbn [codec_of bits_of symbolCount metaDataFloatCount initializeDecode decode row_codec rf_codec af_codec weight_codec] in *.
  - destruct Co as (HB & V). pose proof (lv_wf e L V) as W. unfold row_MetaDataCount in Lm.
    unfold row_init, rds. cbn [Nat.add skipn]. rewrite (proj2 (Nat.leb_le _ _)) by lia. cbn [bind]. apply mapM_total. intros r Hr. apply in_seq in Hr.
    unfold row_decode. rewrite per_row. edestruct (decode_row_ok e (p * n)) with (s := map N.to_nat s') (r := r) as (out & E & _); [exact W| | | |eexists; exact E].
    + intros i _. match goal with |- context [rd ?l r] => destruct (rd_ok l r) as (x & -> & _) end; [rewrite map_length, firstn_length; lia|eauto].
    + rewrite map_length, Ls, count_of. nia.
    + apply (to_nat_below b); [exact Fs|exact (proj2 HB)].
  - destruct Co as (HB & V). pose proof (lv_wf e L V) as W. unfold rf_MetaDataCount in Lm.
    unfold rf_init, rds. rewrite (proj2 (Nat.leb_le (0 + p * n) _)) by nia. rewrite (proj2 (Nat.leb_le (p * n + p * nRows) _)) by nia. cbn [bind].
    apply mapM_total. intros r Hr. apply in_seq in Hr.
    unfold rf_decode. rewrite per_row. edestruct (decode_row_ok e (p * n)) with (s := map N.to_nat s') (r := r) as (out & E & _); [exact W| | | |eexists; exact E].
    + intros i Hi. cbn [fst snd]. match goal with |- context [rd ?l i] => destruct (rd_ok l i) as (x & -> & _) end; [rewrite map_length, firstn_length, skipn_length, Lm; nia|].
      cbn [bind]. destruct (stride_of p n i Hi) as (M1 & _ & _).
      match goal with |- context [rd ?l (r * p + i mod p)] => destruct (rd_ok l (r * p + i mod p)) as (y & -> & _) end; [rewrite map_length, firstn_length, skipn_length, Lm; nia|eexists; reflexivity].
    + rewrite map_length, Ls, count_of. nia.
    + apply (to_nat_below b); [exact Fs|exact (proj2 HB)].
  - destruct Co as (HB & V). pose proof (lv_wf e L V) as W. unfold af_MetaDataCount in Lm.
    destruct (af_init_ok p n nAnt meta) as (cs & as_ & Ei & Lc & Hcs & La & Has); [lia|]. rewrite Ei. cbn [bind].
    apply mapM_total. intros r Hr. apply in_seq in Hr. destruct (Ha eq_refl r) as (A1 & A2); [lia|].
    unfold af_decode. rewrite per_row. cbn [fst snd].
    destruct (mapM_ok (fun q => do x1 <- rd as_ (fst (ants r) * p + q); do x2 <- rd as_ (snd (ants r) * p + q); Ok (mul64 x1 x2)) (fun _ _ => True) (seq 0 p)) as (am & Ea & F2).
    { intros q I. apply in_seq in I. destruct (rd_ok as_ (fst (ants r) * p + q)) as (x1 & -> & _); [rewrite La; nia|]. cbn [bind].
      destruct (rd_ok as_ (snd (ants r) * p + q)) as (x2 & -> & _); [rewrite La; nia|]. cbn [bind]. eauto. }
    rewrite Ea. cbn [bind]. apply Forall2_len in F2. rewrite seq_length in F2.
    edestruct (decode_row_ok e (p * n)) with (s := map N.to_nat s') (r := r) as (out & E & _); [exact W| | | |eexists; exact E].
    + intros i Hi. destruct (rd_ok (map to64 cs) i) as (x & -> & _); [rewrite map_length; lia|]. cbn [bind]. destruct (stride_of p n i Hi) as (M1 & _ & _).
      destruct (rd_ok am (i mod p)) as (y & -> & _); [lia|]. cbn [bind]. eexists; reflexivity.
    + rewrite map_length, Ls, count_of. nia.
    + apply (to_nat_below b); [exact Fs|exact (proj2 HB)].
  - destruct meta as [|m0 meta]; [discriminate Lm|]. cbn [rd nth_error bind]. apply mapM_total. intros r Hr. apply in_seq in Hr. apply decode_weights_ok. rewrite Ls. nia.
Qed.
