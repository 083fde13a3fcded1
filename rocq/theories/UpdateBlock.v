(** Blocks that are decoded, changed and encoded again. *)
From Coq Require Import Reals.
From Verif Require Import Base BaseLemmas Floats TimeBlockBuffer BytePacker BitStream BytePackerProofs BytePackerWhole BytePackerTop File FileProofs StMan StManSpec StManProofs.
From Verif Require Import StochasticEncoder EncSpec StochasticEncoderProofs TimeBlockEncoders TbeSpec TbeLoops TbeMore AfSpec AfCode AfMore Weights WeightSpec WeightProofs WeightBlockProofs Block BlockSpec BlockProofs BlockEnc BlockGood
  Column ColumnSpec StoredColumn StoredProofs System SystemSpec UpdateSpec SessionSpec SystemTotal SystemGood SystemPuts.
From Coq Require Import ZifyNat ZifyN.

Lemma mapM_each {A B} (f : A -> res B) (P : B -> Prop) l : forall l', mapM f l = Ok l' -> (forall a b, In a l -> f a = Ok b -> P b) -> length l' = length l /\ Forall P l'.
Proof.
  induction l as [|a l IH]; cbn [mapM]; intros l' E H; [injection E as <-; now split|].
  destruct (f a) as [b| |] eqn:Ea; try discriminate. cbn [bind] in E. destruct (mapM f l) as [l1| |] eqn:El; try discriminate. cbn [bind] in E. injection E as <-.
  destruct (IH l1 eq_refl) as (L & F); [intros a' b' Hi; apply H; now right|]. split; [cbn; congruence|]. constructor; trivial. apply (H a); [now left|trivial].
Qed.

Lemma decode_row_length e n per s r f out : decode_row e n per s r f = Ok out -> length out = n.
Proof. unfold decode_row. intros E. destruct (mapM_each _ (fun _ => True) _ _ E) as (L & _); [trivial|]. now rewrite seq_length in L. Qed.

Lemma decode_weights_each nPol nChan q m s r out (P : f32 -> Prop) : DecodeWeights nPol nChan q m s r = Ok out -> (forall v, In v s -> P (dequantize q m v)) ->
  length out = nPol * nChan /\ Forall P out.
Proof.
  unfold DecodeWeights. destruct (mapM _ _) as [vs| |] eqn:E; try discriminate. cbn [bind]. intros [= <-] Hs.
  destruct (mapM_each _ (fun v => length v = nPol /\ Forall P v) _ _ E) as (L & F).
  { intros ch v _. unfold rd. destruct (nth_error s _) as [x|] eqn:Ex; [|discriminate]. cbn [bind]. intros [= <-]. split; [apply repeat_length|].
    apply Forall_forall. intros z Hz. apply repeat_spec in Hz. subst z. apply Hs. eapply nth_error_In; eauto. }
  rewrite seq_length in L. clear E Hs. revert nChan L. induction F as [|v vs (L1 & F1) F IH]; intros nChan L; cbn in L |- *; [subst nChan; split; [nia|constructor]|].
  destruct nChan as [|k]; [discriminate|]. injection L as L. destruct (IH k L) as (L2 & F2). rewrite app_length, L1, L2. split; [nia|]. now apply Forall_app.
Qed.

(** all rows of a block are decoded, each with its samples *)
Lemma load_shape c nRows nAnt ants block sym rows : loadBlock (codec_of c) (bits_of c) nRows nAnt ants block sym = Ok rows ->
  length rows = nRows /\ Forall (fun v => length v = nPol_of c * nChan_of c) rows.
Proof.
  unfold loadBlock. destruct (_ <? _); [discriminate|]. destruct (unpack _ _ _ _) as [s| |]; try discriminate. cbn [bind].
  destruct (initializeDecode _ _ _ _) as [f| |]; try discriminate. cbn [bind]. intros E.
  destruct (mapM_each _ (fun v => length v = nPol_of c * nChan_of c) _ _ E) as (L & F); [|now rewrite seq_length in L].
  clear E. intros r v _. destruct c as [e p n b|e p n b|e p n b|p n b]; cbn [codec_of decode row_codec rf_codec af_codec weight_codec nPol_of nChan_of].
  - apply decode_row_length.
  - apply decode_row_length.
  - unfold af_decode. destruct (mapM _ _) as [am| |]; try discriminate. cbn [bind]. apply decode_row_length.
  - intros D. now destruct (decode_weights_each p n _ _ _ _ _ (fun _ => True) D).
Qed.

(** ** Weights stay positive *)
Lemma zero_symbol q m : (2 <= q <= 65536)%Z -> nonneg m -> (0 < B2R m)%R -> forall s, (Z.of_N s <= q - 1)%Z -> nonneg (dequantize q m s).
Proof.
  intros Hq (Fm & _) Pm s Hs. destruct (dequant_val m Fm Pm q Hq (Z.of_N s) ltac:(lia)) as (F & _ & R & _). rewrite N2Z.id in *. split; [exact F|apply R].
Qed.

Section sound.
Variables (T : table) (nt : nat) (c : coldef) (L : f32).
Notation E := (stored_column (codec_of c) (af_of c) (bits_of c) (nPol_of c * nChan_of c) T nt).

(** the block decodes to rows that can be encoded *)
Definition sound (n : N) (na : nat) (y : list N) : Prop := forall b, length (Column.dec E n na b y) = N.to_nat n /\
  Forall (fun v => length v = nPol_of c * nChan_of c /\ row_ok c v) (Column.dec E n na b y).

Lemma enc_length n na x y : coldef_ok c L -> enc E n na x y -> length y = Block.CalculateBlockSize (codec_of c) (bits_of c) (N.to_nat n) na.
Proof.
  intros _ (_ & g & packed & sym & bufs & (Lp & _ & _ & _) & Ey). unfold encodeAndWrite in Ey. destruct (_ <? _); [discriminate|].
  destruct (encode _ _ _ _ _ _) as [(m & s)| |]; cbn [bind] in Ey; try discriminate. destruct (pack _ _ _ _) as [bin| |]; cbn [bind] in Ey; try discriminate.
  unfold rds in Ey. destruct (Nat.leb_spec (0 + (4 * nMetaFloats (codec_of c) (N.to_nat n) na + binarySize (codec_of c) (bits_of c) (N.to_nat n))) (length (concat (map float_bytes m) ++ bin))) as [Q|Q];
    cbn [bind] in Ey; try discriminate.
  injection Ey as <- _. cbn [skipn]. rewrite firstn_length. unfold Block.CalculateBlockSize in *. lia.
Qed.

Lemma af_rows n na b : (af_of c = true -> forall r, fst (t_ants T r) < na /\ snd (t_ants T r) < na) -> af_of c = true -> forall r, r < N.to_nat n -> fst (block_ants T n b r) < na /\ snd (block_ants T n b r) < na.
Proof. intros Ha A r _. unfold block_ants. now apply Ha. Qed.

(** any bytes decode *)
Lemma dec_any n na b y : coldef_ok c L -> fits 8 y -> length y = Block.CalculateBlockSize (codec_of c) (bits_of c) (N.to_nat n) na ->
  (af_of c = true -> forall r, fst (t_ants T r) < na /\ snd (t_ants T r) < na) ->
  exists rows, loadBlock (codec_of c) (bits_of c) (N.to_nat n) na (block_ants T n b) y (repeat 0%N (nSymbols (codec_of c) (N.to_nat n))) = Ok rows /\
    Column.dec E n na b y = rows /\ length rows = N.to_nat n /\ Forall (fun v => length v = nPol_of c * nChan_of c) rows.
Proof.
  intros Co F Ly Ha. destruct (load_total c L (N.to_nat n) na (block_ants T n b) y (repeat 0%N (nSymbols (codec_of c) (N.to_nat n))) Co F Ly (repeat_length _ _) (af_rows n na b Ha)) as (rows & Er).
  exists rows. split; trivial. destruct (load_shape _ _ _ _ _ _ _ Er) as (L1 & F1). split; [|now split]. cbn [Column.dec stored_column]. now rewrite Er.
Qed.
End sound.

(** the largest weight is stored first *)
Lemma weight_first p ch bits T nt n na (x : tbb f32) y : supported bits -> regular p ch (map (@visibilities f32) x) -> Forall (Forall nonneg) (map (@visibilities f32) x) ->
  enc (weight_column bits p ch T nt) n na x y -> exists m, floats 1 y = [m] /\ nonneg m /\ (0 < B2R m)%R.
Proof.
  intros Sb Rg Nn (Lx & g & packed & sym & bufs & Tb & Ey). pose proof (le_rows _ _ Lx) as Lx'. destruct g.
  assert (Hq : (2 <= 2 ^ Z.of_N bits <= 65536)%Z).
  { destruct (supported_cases bits Sb) as [-> |[-> |[-> |[-> |[-> |[-> |[-> | ->]]]]]]]; vm_compute; split; discriminate. }
  destruct (weights_roundtrip p ch (2 ^ Z.of_N bits) (map (@visibilities f32) x) Rg Nn Hq) as (m & ss & Em & Lss & _ & Fm & Pm & _).
  destruct (weight_block p ch bits (N.to_nat n) na (fun _ => (0, 0)) x packed sym Sb Rg Nn Lx' Tb) as (y' & pa & sy & Ey' & _ & _ & _ & EE & _).
  assert (y' = y) by (rewrite Ey in Ey'; congruence). subst y'. exists m. split; [|split; [split; [exact Fm|apply Rlt_le; exact Pm]|exact Pm]].
  cbn [weight_codec encode] in EE. rewrite Em in EE. cbn [bind] in EE. unfold nMetaFloats in EE. cbn [weight_codec metaDataFloatCount floats] in EE.
  cbn [wr upd bind length Nat.ltb Nat.leb] in EE. destruct (wrs sym 0 ss); try discriminate EE. cbn [bind] in EE. injection EE as EE _. change (floats 1 y) with [float_of (firstn 4 y)]. rewrite EE. reflexivity.
Qed.

Section sound2.
Variables (T : table) (nt : nat) (c : coldef) (L : f32).
Notation E := (stored_column (codec_of c) (af_of c) (bits_of c) (nPol_of c * nChan_of c) T nt).

Lemma enc_sound n na x y : coldef_ok c L -> (0 < nPol_of c) -> enc E n na x y -> (forall row, In row x -> length (visibilities row) = nPol_of c * nChan_of c /\ row_ok c (visibilities row)) ->
  (af_of c = true -> forall r, fst (t_ants T r) < na /\ snd (t_ants T r) < na) -> sound T nt c n na y.
Proof.
  intros Co Hp Ey Hx Ha b. pose proof (enc_length T nt c L n na x y Co Ey) as Ly. pose proof (enc_fits _ _ _ _ _ _ _ _ _ _ Ey) as Fy.
  destruct (dec_any T nt c L n na b y Co Fy Ly Ha) as (rows & El & -> & Lr & Fr). split; trivial.
  destruct c as [e p ch bi|e p ch bi|e p ch bi|p ch bi]; try (eapply Forall_impl; [|exact Fr]; intros v Hv; now split).
  cbn [row_ok codec_of af_of bits_of nPol_of nChan_of coldef_ok] in *.
  destruct (weight_first p ch bi T nt n na x y Co) as (m & Em & Nm & Pm); trivial.
  { split; [lia|]. apply Forall_forall. intros v Hv. apply in_map_iff in Hv as (rw & <- & Hi). destruct (Hx rw Hi) as (Q & _). etransitivity; [exact Q|apply Nat.mul_comm]. }
  { apply Forall_forall. intros v Hv. apply in_map_iff in Hv as (rw & <- & Hi). now destruct (Hx rw Hi). }
  unfold loadBlock in El. destruct (_ <? _); [discriminate|]. rewrite unpack_layout_lem in El; trivial.
  2:{ rewrite repeat_length. unfold nSymbols. cbn [weight_codec symbolCount]. lia. }
  2:{ rewrite skipn_length, Ly. unfold Block.CalculateBlockSize, binarySize. rewrite Nat.add_comm, Nat.add_sub. apply Nat.le_refl. }
  2:{ unfold fits in *. rewrite <- (firstn_skipn (4 * nMetaFloats (weight_codec p ch bi) (N.to_nat n) na) y) in Fy. now apply Forall_app in Fy. }
  cbn [bind] in El. unfold nMetaFloats in El. cbn [weight_codec metaDataFloatCount initializeDecode decode] in El. rewrite Em in El. cbn [rd nth_error bind] in El.
  match type of El with mapM (fun row => DecodeWeights _ _ _ _ (?s ++ ?t) _) _ = _ => set (s' := s) in *; assert (Fs : fits bi s') by apply digits_fits; replace t with (@nil N) in El end.
  2:{ symmetry. apply skipn_all2. rewrite repeat_length. apply Nat.le_refl. }
  rewrite app_nil_r in El. clearbody s'.
  assert (Hq : (2 <= 2 ^ Z.of_N bi <= 65536)%Z).
  { destruct (supported_cases bi Co) as [-> |[-> |[-> |[-> |[-> |[-> |[-> | ->]]]]]]]; vm_compute; split; discriminate. }
  refine (proj2 (mapM_each _ _ _ _ El _)). intros r v _ Dv. eapply decode_weights_each; [exact Dv|]. intros z Hz. apply zero_symbol; trivial.
  unfold fits in Fs. rewrite Forall_forall in Fs. specialize (Fs z Hz). assert (Hq2 : Z.of_N (2 ^ bi) = (2 ^ Z.of_N bi)%Z) by (rewrite N2Z.inj_pow; reflexivity). lia.
Qed.

(** ** What is kept of a block that was read, changed and stored again *)
Lemma block_kept n na b x y : coldef_ok c L -> (0 < nPol_of c) -> (0 < nChan_of c) -> n <> 0%N -> (n <= 2 ^ 32)%N ->
  length x = N.to_nat n -> (forall i row, nth_error x i = Some row -> (antenna1 row, antenna2 row) = t_ants T (b * n + N.of_nat i)) ->
  (forall row, In row x -> length (visibilities row) = nPol_of c * nChan_of c /\ row_ok c (visibilities row)) ->
  (af_of c = true -> forall r, fst (t_ants T r) < na /\ snd (t_ants T r) < na) -> enc E n na x y ->
  forall r row, nth_error x r = Some row -> exists out, nth_error (Column.dec E n na b y) r = Some out /\ kept c L na x (floats (nMetaFloats (codec_of c) (N.to_nat n) na) y) row out.
Proof.
  intros Co Hp Hc Zn N32 Lx Ax Hx Ha Ey.
  set (D := fun r : N => match nth_error x (N.to_nat (r mod n)) with Some row => visibilities row | None => @nil (data E) end).
  assert (Bl : forall i, (N.of_nat i < n)%N -> ((b * n + N.of_nat i) mod n = N.of_nat i)%N) by (intros i Hi; symmetry; apply (N.mod_unique _ _ b); lia).
  assert (Xb : exact_block E D (b * n + n) n b x).
  { split; [|cbn [data stored_column] in *; lia]. split; [cbn [data stored_column] in *; lia|]. split.
    - intros i row Hi. split; [now apply Ax|]. apply Hx. eapply nth_error_In; eauto.
    - intros r Hr Hb. pose proof (N.mod_upper_bound r n Zn) as Hm. destruct (nth_error x (N.to_nat (r mod n))) as [row|] eqn:Er; [|apply nth_error_None in Er; cbn [data stored_column] in *; lia].
      exists row. split; [exact Er|]. unfold D. rewrite Er. symmetry. apply firstn_all2. destruct (Hx row (nth_error_In _ _ Er)) as (Q & _). cbn [nSamp stored_column]. eapply Nat.eq_le_incl. exact Q. }
  assert (Da : data_ok c D).
  { unfold D. clear Xb Bl Ey Ax Lx D. destruct c as [| | |p ch bi]; try exact I. cbn [data_ok]. intros r. destruct (nth_error x _) as [row|] eqn:Er; [|constructor]. apply (Hx row). eapply nth_error_In; eauto. }
  destruct (kept_rows T nt c L D (b * n + n)%N n na b x y Co Da Hp Hc Zn N32 ltac:(lia) Ha Xb Ey) as (rows & El & K).
  intros r row Hr. destruct (K r row Hr) as (out & Ho & Hk). exists out. split; trivial. cbn [Column.dec stored_column]. rewrite El by apply repeat_length. exact Ho.
Qed.
End sound2.
