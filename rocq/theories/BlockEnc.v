(** Blocks of the three visibility encoders and of the weights through the bytes. *)
From Verif Require Import Base BaseLemmas Floats TimeBlockBuffer BytePacker BitStream BytePackerProofs BytePackerWhole BytePackerTop PackPrefix
  StochasticEncoder EncSpec StochasticEncoderProofs TimeBlockEncoders TbeSpec TbeLoops TbeMore AfSpec AfCode AfMore Weights WeightSpec WeightProofs WeightBlockProofs Block BlockSpec BlockProofs.
From Coq Require Import ZifyNat ZifyN.

Lemma supported_le bits : supported bits -> (2 ^ bits <= 2 ^ 16)%N.
Proof. intro H. apply N.pow_le_mono_r; [discriminate|]. destruct (supported_cases bits H) as [-> |[-> |[-> |[-> |[-> |[-> |[-> | ->]]]]]]]; vm_compute; discriminate. Qed.

Lemma per_row nPol nChan : SymbolsPerRow nPol nChan = nPol * nChan * 2.
Proof. unfold SymbolsPerRow. lia. Qed.
Lemma count_of nRow nPol nChan : SymbolCount nRow nPol nChan = nRow * (nPol * nChan * 2).
Proof. unfold SymbolCount. nia. Qed.

(** the symbols that an encoder leaves in the buffer *)
Lemma filled_fits e bits ns (sym : list N) s : bit_encoder e bits -> length s = length sym -> fits 32 sym ->
  (forall k, ns <= k -> nth_error s k = nth_error (map N.to_nat sym) k) -> (forall k x, k < ns -> nth_error s k = Some x -> x < QuantizationCount e) ->
  fits 32 (map N.of_nat s) /\ fits bits (firstn ns (map N.of_nat s)).
Proof.
  intros (Sb & Q) Ls F Hi Lo. assert (Q2 : (N.of_nat (QuantizationCount e) <= 2 ^ 16)%N) by (rewrite Q; now apply supported_le). split.
  - apply Forall_forall. intros x I. apply in_map_iff in I. destruct I as (y & <- & I). apply In_nth_error in I. destruct I as (k & Nk).
    destruct (Nat.lt_ge_cases k ns) as [H|H].
    + specialize (Lo k y H Nk). change (2 ^ 16)%N with 65536%N in Q2. change (2 ^ 32)%N with 4294967296%N. lia.
    + rewrite Hi in Nk by lia. apply nth_error_In, in_map_iff in Nk. destruct Nk as (z & <- & Iz). rewrite N2Nat.id. unfold fits in F. rewrite Forall_forall in F. now apply F.
  - rewrite firstn_map. apply (of_nat_fits bits _ (QuantizationCount e)); [|lia]. intros x I. apply In_nth_error in I. destruct I as (k & Nk).
    assert (Hk : k < ns) by (pose proof (nth_lt _ _ _ Nk) as H; rewrite firstn_length in H; lia). rewrite nth_error_firstn_lt in Nk by lia. now apply (Lo k).
Qed.

Lemma same_symbols k s s' j : firstn k s' = firstn k (map N.of_nat s) -> j < k -> nth_error (map N.to_nat s') j = nth_error s j.
Proof.
  intros H Hj. transitivity (nth_error (map N.to_nat (map N.of_nat s)) j); [|now rewrite to_of_nat].
  rewrite (nth_error_map_opt N.to_nat s'), (nth_error_map_opt N.to_nat (map N.of_nat s)). f_equal.
  rewrite <- (nth_error_firstn_lt s' k), <- (nth_error_firstn_lt (map N.of_nat s) k) by lia. now rewrite H.
Qed.

Section Visibilities.
Variables (e : encoder) (bits : N) (nPol nChan nRows nAnt : nat) (L : f32).
Hypotheses (HB : bit_encoder e bits) (W : well_formed e) (EL : MaxQuantity e = Ok L).
Let n := nPol * nChan.

Lemma row_block ants (g : nat -> Z) (b : tbb cf) packed sym : rows_of n b -> length b <= nRows ->
  thread_buffers (row_codec e nPol nChan) bits nRows nAnt packed sym ->
  block_reads (row_codec e nPol nChan) bits nRows nAnt ants g b packed sym (fun meta sym => row_roundtrip e nPol nChan (Some g) b meta (map N.to_nat sym)).
Proof.
  intros R Hl T. pose proof T as (Lp & Ls & Fp & Fs). set (c := row_codec e nPol nChan) in *. cbn [nSymbols c symbolCount row_codec] in Ls.
  set (meta := floats (nMetaFloats c nRows nAnt) packed). assert (Lm0 : length meta = nRows) by apply floats_length.
  unfold nSymbols in Ls. cbn [c row_codec symbolCount] in Ls.
  destruct (row_filled e nPol nChan (Some g) b meta (map N.to_nat sym) L W EL R) as (m & s & E & Lm & Ls' & _ & Hi & Lo & _).
  { unfold row_MetaDataCount. lia. } { rewrite map_length, Ls, !count_of. nia. }
  rewrite map_length in Ls'. destruct (filled_fits e bits _ sym s HB Ls' Fs Hi Lo) as (F32 & Fk).
  destruct (block_bytes c bits nRows nAnt g b packed sym m (map N.of_nat s) (SymbolCount (length b) nPol nChan) (proj1 HB) T) as (block & packed' & E1 & LB & FB & T' & HM & H).
  { cbn [c row_codec encode]. fold meta. rewrite E. reflexivity. } { cbn. unfold row_MetaDataCount. lia. } { rewrite map_length. unfold nSymbols. cbn [c row_codec symbolCount]. lia. }
  { exact F32. } { unfold nSymbols. cbn [c row_codec symbolCount]. rewrite !count_of. nia. } { exact Fk. }
  exists block, packed', (map N.of_nat s). split; [exact E1|]. split; [exact LB|]. split; [exact FB|]. split; [exact T'|]. split; [exact HM|].
  intros sym0 L0. destruct (H sym0 L0) as (s' & L's & F's & K & HL). rewrite HL. clear H HL. unfold nSymbols in L's. cbn [c row_codec symbolCount initializeDecode decode] in *.
  unfold row_init, rds. cbn [Nat.add]. rewrite Lm, Lm0. rewrite (proj2 (Nat.leb_le nRows nRows)) by lia. cbn [bind]. cbn [skipn]. rewrite firstn_all2 by lia.
  set (fs := map to64 m). assert (Lf : length fs = nRows) by (exact (eq_trans (map_length _ _) (eq_trans Lm Lm0))).
  assert (Fn : Forall (fun x => x < QuantizationCount e) (map N.to_nat s')) by (apply (to_nat_below bits); [exact F's|exact (proj2 HB)]).
  assert (D : forall r, r < nRows -> exists out, row_decode e nPol nChan fs (map N.to_nat s') r = Ok out /\ length out = n).
  { intros r Hr. unfold row_decode. rewrite per_row. apply decode_row_ok; trivial.
    - intros i _. destruct (rd_ok fs r) as (x & -> & _); [lia|]. now exists x.
    - rewrite map_length, L's, count_of. fold n. nia. }
  destruct (mapM_ok (fun row => row_decode e nPol nChan fs (map N.to_nat s') row) (fun row out => row_decode e nPol nChan fs (map N.to_nat s') row = Ok out) (seq 0 nRows)) as (rows & Er & F2).
  { intros r I. apply in_seq in I. destruct (D r ltac:(lia)) as (out & Eo & _). exists out. now split. }
  exists rows. split; [exact Er|]. split; [apply Forall2_len in F2; now rewrite seq_length in F2|].
  intros r Hr. change (r < @length (drow cf) b) in Hr. destruct (BaseLemmas.Forall2_nth _ _ _ F2 r r) as (out & No & Eo); [rewrite nth_error_seq by lia; reflexivity|].
  exists out. split; [exact No|]. unfold row_roundtrip. fold meta. rewrite E. cbn [bind]. unfold row_init, rds. cbn [Nat.add skipn]. rewrite Lm, Lm0. rewrite (proj2 (Nat.leb_le (length b) nRows)) by lia. cbn [bind].
  refine (eq_trans _ Eo). unfold row_decode. rewrite per_row. apply decode_row_ext.
  - intros _ _. unfold rd. rewrite <- firstn_map. now rewrite nth_error_firstn_lt by lia.
  - intros j Hj. symmetry. apply (same_symbols (SymbolCount (length b) nPol nChan)); [exact K|]. rewrite count_of. fold n in Hj |- *. nia.
Qed.

Lemma rf_block ants (g : nat -> Z) (b : tbb cf) packed sym : rows_of n b -> length b <= nRows ->
  thread_buffers (rf_codec e nPol nChan) bits nRows nAnt packed sym ->
  block_reads (rf_codec e nPol nChan) bits nRows nAnt ants g b packed sym (fun meta sym => rf_roundtrip e nPol nChan (Some g) b meta (map N.to_nat sym)).
Proof.
  intros R Hl T. pose proof T as (Lp & Ls & Fp & Fs). set (c := rf_codec e nPol nChan) in *.
  set (meta := floats (nMetaFloats c nRows nAnt) packed). assert (Lm0 : length meta = nPol * (nChan + nRows)) by apply floats_length.
  unfold nSymbols in Ls. cbn [c rf_codec symbolCount] in Ls.
  destruct (rf_filled e nPol nChan (Some g) b meta (map N.to_nat sym) L W EL R) as (m & s & E & Lm & Ls' & _ & Hi & Lo & _).
  { unfold rf_MetaDataCount. rewrite Lm0. apply Nat.mul_le_mono_l. lia. } { rewrite map_length, Ls, !count_of. nia. }
  rewrite map_length in Ls'. destruct (filled_fits e bits _ sym s HB Ls' Fs Hi Lo) as (F32 & Fk).
  destruct (block_bytes c bits nRows nAnt g b packed sym m (map N.of_nat s) (SymbolCount (length b) nPol nChan) (proj1 HB) T) as (block & packed' & E1 & LB & FB & T' & HM & H).
  { cbn [c rf_codec encode]. fold meta. rewrite E. reflexivity. } { rewrite Lm. exact Lm0. } { rewrite map_length. unfold nSymbols. cbn [c rf_codec symbolCount]. lia. }
  { exact F32. } { unfold nSymbols. cbn [c rf_codec symbolCount]. rewrite !count_of. nia. } { exact Fk. }
  exists block, packed', (map N.of_nat s). split; [exact E1|]. split; [exact LB|]. split; [exact FB|]. split; [exact T'|]. split; [exact HM|].
  intros sym0 L0. destruct (H sym0 L0) as (s' & L's & F's & K & HL). rewrite HL. clear H HL. unfold nSymbols in L's. cbn [c rf_codec symbolCount initializeDecode decode] in *.
  assert (I : forall k, k <= nRows -> rf_init nPol nChan m k = Ok (map to64 (firstn n m), map to64 (firstn (nPol * k) (skipn n m)))).
  { intros k Hk. unfold rf_init, rds. fold n. rewrite Lm, Lm0. rewrite (proj2 (Nat.leb_le (0 + n) _)) by (unfold n; nia). rewrite (proj2 (Nat.leb_le (n + nPol * k) _)) by (unfold n; nia). reflexivity. }
  rewrite I by lia. cbn [bind].
  set (fs := (map to64 (firstn n m), map to64 (firstn (nPol * nRows) (skipn n m)))).
  assert (Lf : length (snd fs) = nPol * nRows) by (cbn [snd fs]; rewrite map_length, firstn_length, skipn_length, Lm, Lm0; unfold n; nia).
  assert (Lc : length (fst fs) = n) by (cbn [fst fs]; rewrite map_length, firstn_length, Lm, Lm0; unfold n; nia).
  assert (Fn : Forall (fun x => x < QuantizationCount e) (map N.to_nat s')) by (apply (to_nat_below bits); [exact F's|exact (proj2 HB)]).
  assert (D : forall r, r < nRows -> exists out, rf_decode e nPol nChan fs (map N.to_nat s') r = Ok out /\ length out = n).
  { intros r Hr. unfold rf_decode. rewrite per_row. apply decode_row_ok; trivial.
    - intros i Hi'. destruct (rd_ok (fst fs) i) as (x & -> & _); [unfold n in *; lia|]. cbn [bind]. destruct (stride_of nPol nChan i Hi') as (M1 & _ & _).
      destruct (rd_ok (snd fs) (r * nPol + i mod nPol)) as (y & -> & _); [rewrite Lf; nia|]. cbn [bind]. eauto.
    - rewrite map_length, L's, count_of. fold n. nia. }
  destruct (mapM_ok (fun row => rf_decode e nPol nChan fs (map N.to_nat s') row) (fun row out => rf_decode e nPol nChan fs (map N.to_nat s') row = Ok out) (seq 0 nRows)) as (rows & Er & F2).
  { intros r I'. apply in_seq in I'. destruct (D r ltac:(lia)) as (out & Eo & _). exists out. now split. }
  exists rows. split; [exact Er|]. split; [apply Forall2_len in F2; now rewrite seq_length in F2|].
  intros r Hr. change (r < @length (drow cf) b) in Hr. destruct (BaseLemmas.Forall2_nth _ _ _ F2 r r) as (out & No & Eo); [rewrite nth_error_seq by lia; reflexivity|].
  exists out. split; [exact No|]. unfold rf_roundtrip. fold meta. rewrite E. cbn [bind]. rewrite I by lia. cbn [bind].
  refine (eq_trans _ Eo). unfold rf_decode. rewrite per_row. apply decode_row_ext.
  - intros i Hi'. cbn [fst snd fs]. destruct (rd (map to64 (firstn n m)) i); cbn [bind]; trivial. destruct (stride_of nPol nChan i Hi') as (M1 & _ & _).
    unfold rd. rewrite <- !firstn_map. now rewrite !nth_error_firstn_lt by nia.
  - intros j Hj. symmetry. apply (same_symbols (SymbolCount (length b) nPol nChan)); [exact K|]. rewrite count_of. fold n in Hj |- *. nia.
Qed.

Lemma af_block ants (g : nat -> Z) (b : tbb cf) packed sym : is_finite L = true -> (0 < B2R L)%R -> rows_of n b -> antennas_below nAnt b -> 0 < nChan -> b <> [] -> length b <= nRows ->
  (forall r, r < nRows -> fst (ants r) < nAnt /\ snd (ants r) < nAnt) -> (forall r row, nth_error b r = Some row -> ants r = (antenna1 row, antenna2 row)) ->
  thread_buffers (af_codec e nPol nChan) bits nRows nAnt packed sym ->
  block_reads (af_codec e nPol nChan) bits nRows nAnt ants g b packed sym
    (fun meta sym r => match af_roundtrip (S (nChan + nAnt)) e nPol nChan nAnt (Some g) b meta (map N.to_nat sym) r with Some x => x | None => UB end).
Proof.
  intros FL PL R A Hc Nb Hl HA HB' T. pose proof T as (Lp & Ls & Fp & Fs). set (c := af_codec e nPol nChan) in *.
  set (meta := floats (nMetaFloats c nRows nAnt) packed). assert (Lm0 : length meta = nPol * (nChan + nAnt)) by apply floats_length.
  unfold nSymbols in Ls. cbn [c af_codec symbolCount] in Ls.
  destruct (af_filled (S (nChan + nAnt)) e nPol nChan nAnt (Some g) b meta (map N.to_nat sym) L W EL FL PL R A Hc Nb) as (m & s & E & Lm & Ls' & _ & Hi & Lo & _).
  { lia. } { unfold af_MetaDataCount. rewrite Lm0. lia. } { rewrite map_length, Ls, !count_of. nia. }
  rewrite map_length in Ls'. destruct (filled_fits e bits _ sym s HB Ls' Fs Hi Lo) as (F32 & Fk).
  destruct (block_bytes c bits nRows nAnt g b packed sym m (map N.of_nat s) (SymbolCount (length b) nPol nChan) (proj1 HB) T) as (block & packed' & E1 & LB & FB & T' & HM & H).
  { cbn [c af_codec encode]. fold meta. unfold af_run in E. rewrite E. reflexivity. } { rewrite Lm. exact Lm0. } { rewrite map_length. unfold nSymbols. cbn [c af_codec symbolCount]. lia. }
  { exact F32. } { unfold nSymbols. cbn [c af_codec symbolCount]. rewrite !count_of. nia. } { exact Fk. }
  exists block, packed', (map N.of_nat s). split; [exact E1|]. split; [exact LB|]. split; [exact FB|]. split; [exact T'|]. split; [exact HM|].
  intros sym0 L0. destruct (H sym0 L0) as (s' & L's & F's & K & HL). rewrite HL. clear H HL. unfold nSymbols in L's. cbn [c af_codec symbolCount initializeDecode decode] in *.
  destruct (af_init_ok nPol nChan nAnt m) as (cs & as_ & Ei & Lc & Hcs & La & Has); [lia|]. rewrite Ei. cbn [bind]. fold n in Lc.
  assert (Fn : Forall (fun x => x < QuantizationCount e) (map N.to_nat s')) by (apply (to_nat_below bits); [exact F's|exact (proj2 HB)]).
  assert (D : forall r, r < nRows -> exists out, af_decode e nPol nChan (map to64 cs, as_) (map N.to_nat s') r (fst (ants r)) (snd (ants r)) = Ok out /\ length out = n).
  { intros r Hr. unfold af_decode. rewrite per_row. cbn [fst snd]. destruct (HA r Hr) as (A1 & A2).
    destruct (mapM_ok (fun p => do x1 <- rd as_ (fst (ants r) * nPol + p); do x2 <- rd as_ (snd (ants r) * nPol + p); Ok (mul64 x1 x2)) (fun _ _ => True) (seq 0 nPol)) as (am & Ea & F2).
    { intros p I. apply in_seq in I. destruct (rd_ok as_ (fst (ants r) * nPol + p)) as (x1 & -> & _); [rewrite La; nia|]. cbn [bind].
      destruct (rd_ok as_ (snd (ants r) * nPol + p)) as (x2 & -> & _); [rewrite La; nia|]. cbn [bind]. eauto. }
    rewrite Ea. cbn [bind]. apply Forall2_len in F2. rewrite seq_length in F2.
    apply decode_row_ok; trivial.
    - intros i Hi'. destruct (rd_ok (map to64 cs) i) as (x & -> & _); [rewrite map_length; fold n in Hi'; lia|]. cbn [bind]. destruct (stride_of nPol nChan i Hi') as (M1 & _ & _).
      destruct (rd_ok am (i mod nPol)) as (y & -> & _); [lia|]. cbn [bind]. eauto.
    - rewrite map_length, L's, count_of. fold n. nia. }
  destruct (mapM_ok (fun r => af_decode e nPol nChan (map to64 cs, as_) (map N.to_nat s') r (fst (ants r)) (snd (ants r)))
    (fun r out => af_decode e nPol nChan (map to64 cs, as_) (map N.to_nat s') r (fst (ants r)) (snd (ants r)) = Ok out) (seq 0 nRows)) as (rows & Er & F2).
  { intros r I'. apply in_seq in I'. destruct (D r ltac:(lia)) as (out & Eo & _). exists out. now split. }
  exists rows. split; [exact Er|]. split; [apply Forall2_len in F2; now rewrite seq_length in F2|].
  intros r Hr. change (r < @length (drow cf) b) in Hr. destruct (BaseLemmas.Forall2_nth _ _ _ F2 r r) as (out & No & Eo); [rewrite nth_error_seq by lia; reflexivity|].
  exists out. split; [exact No|]. destruct (nth_some b r Hr) as (row & Nr). rewrite (HB' r row Nr) in Eo. cbn [fst snd] in Eo.
  unfold af_roundtrip. fold meta. unfold af_run in E. destruct (af_encode _ _ _ _ _ _ _ _ _) as [x|]; [|discriminate E]. subst x. cbn [bind]. rewrite Ei. cbn [bind]. unfold rd at 1. rewrite Nr. cbn [bind].
  refine (eq_trans _ Eo). unfold af_decode. rewrite per_row. match goal with |- bind ?x _ = _ => destruct x; cbn [bind]; trivial end. apply decode_row_ext; trivial.
  intros j Hj. symmetry. apply (same_symbols (SymbolCount (length b) nPol nChan)); [exact K|]. rewrite count_of. fold n in Hj |- *. nia.
Qed.
End Visibilities.

(** ** Weights *)
Lemma decode_weights_ok nPol nChan q m s r : (r + 1) * nChan <= length s -> exists out, DecodeWeights nPol nChan q m s r = Ok out.
Proof.
  intro H. unfold DecodeWeights.
  destruct (mapM_ok (fun ch => do x <- rd s (r * nChan + ch); Ok (repeat (dequantize q m x) nPol)) (fun _ _ => True) (seq 0 nChan)) as (vs & -> & _).
  { intros ch I. apply in_seq in I. destruct (rd_ok s (r * nChan + ch)) as (x & -> & _); [nia|]. cbn [bind]. eauto. }
  cbn [bind]. eauto.
Qed.

Lemma weight_block nPol nChan bits nRows nAnt ants (b : tbb f32) packed sym : supported bits ->
  regular nPol nChan (map (@visibilities f32) b) -> Forall (Forall nonneg) (map (@visibilities f32) b) -> length b <= nRows ->
  thread_buffers (weight_codec nPol nChan bits) bits nRows nAnt packed sym ->
  block_reads (weight_codec nPol nChan bits) bits nRows nAnt ants tt b packed sym (fun _ _ => weights_readback nPol nChan bits b).
Proof.
  intros Sb Rg Nn Hl T. pose proof T as (Lp & Ls & Fp & Fs). set (c := weight_codec nPol nChan bits) in *.
  set (meta := floats (nMetaFloats c nRows nAnt) packed). assert (Lm0 : length meta = 1) by apply floats_length.
  unfold nSymbols in Ls. cbn [c weight_codec symbolCount] in Ls.
  assert (Hq : (2 <= 2 ^ Z.of_N bits <= 65536)%Z).
  { destruct (supported_cases bits Sb) as [-> |[-> |[-> |[-> |[-> |[-> |[-> | ->]]]]]]]; vm_compute; split; discriminate. }
  assert (Hq2 : Z.of_N (2 ^ bits) = (2 ^ Z.of_N bits)%Z) by (rewrite N2Z.inj_pow; reflexivity).
  set (q := (2 ^ Z.of_N bits)%Z) in *.
  destruct (weights_roundtrip nPol nChan q (map (@visibilities f32) b) Rg Nn Hq) as (mx & ss & E & Lss & Lo & _ & _ & HD & _). rewrite map_length in Lss.
  set (s := ss ++ skipn (length ss) sym).
  assert (LS : length s = length sym) by (unfold s; rewrite app_length, skipn_length, Ls, Lss; nia).
  assert (Fb : fits bits ss) by (apply Forall_forall; intros x I; rewrite Forall_forall in Lo; specialize (Lo x I); lia).
  assert (Fss : fits 32 s).
  { unfold s. apply fits_app. split.
    - apply Forall_forall. intros x I. rewrite Forall_forall in Lo. specialize (Lo x I). change (2 ^ 32)%N with 4294967296%N. lia.
    - unfold fits in *. rewrite <- (firstn_skipn (length ss) sym) in Fs. now apply Forall_app in Fs. }
  destruct (block_bytes c bits nRows nAnt tt b packed sym [mx] s (length ss) Sb T) as (block & packed' & E1 & LB & FB & T' & HM & H).
  { cbn [c weight_codec encode]. fold meta q. rewrite E. cbn [bind]. destruct meta as [|m0 [|? ?]]; try discriminate Lm0. cbn [wr upd bind length Nat.ltb Nat.leb].
    unfold wrs. cbn [Nat.add firstn app]. rewrite (proj2 (Nat.leb_le (length ss) (length sym))) by (rewrite Ls, Lss; nia). reflexivity. }
  { reflexivity. } { unfold nSymbols. cbn [c weight_codec symbolCount]. lia. } { exact Fss. }
  { unfold nSymbols. cbn [c weight_codec symbolCount]. rewrite Lss. nia. } { unfold s. now rewrite (proj1 (first_app ss _ (length ss) eq_refl)). }
  exists block, packed', s. split; [exact E1|]. split; [exact LB|]. split; [exact FB|]. split; [exact T'|]. split; [exact HM|].
  intros sym0 L0. destruct (H sym0 L0) as (s' & L's & F's & K & HL). rewrite HL. clear H HL. unfold nSymbols in L's. cbn [c weight_codec symbolCount initializeDecode decode] in *.
  cbn [rd nth_error bind]. fold q.
  destruct (mapM_ok (fun r => DecodeWeights nPol nChan q mx s' r) (fun r out => DecodeWeights nPol nChan q mx s' r = Ok out) (seq 0 nRows)) as (rows & Er & F2).
  { intros r I. apply in_seq in I. destruct (decode_weights_ok nPol nChan q mx s' r) as (out & Eo); [rewrite L's; nia|]. exists out. now split. }
  exists rows. split; [exact Er|]. split; [apply Forall2_len in F2; now rewrite seq_length in F2|].
  intros r Hr. change (r < @length (drow f32) b) in Hr. destruct (BaseLemmas.Forall2_nth _ _ _ F2 r r) as (out & No & Eo); [rewrite nth_error_seq by lia; reflexivity|].
  exists out. split; [exact No|]. unfold weights_readback. fold q. rewrite E. cbn [bind]. refine (eq_trans _ Eo).
  unfold DecodeWeights. f_equal. apply mapM_ext. intros ch I. apply in_seq in I. unfold rd.
  assert (Hi : r * nChan + ch < length ss) by (rewrite Lss; nia).
  rewrite <- (nth_error_firstn_lt s' (length ss)) by lia. rewrite K. unfold s. now rewrite (proj1 (first_app ss _ (length ss) eq_refl)).
Qed.
