(** The error bounds of the encoders through the bytes of a block. *)
From Coq Require Import Reals.
From Flocq Require Import Core.
From Verif Require Import Base BaseLemmas Floats TimeBlockBuffer BytePacker BitStream BytePackerProofs BytePackerWhole BytePackerTop StochasticEncoder EncSpec TimeBlockEncoders TbeSpec TbeErr TbeRowRfProofs TbeMore
  AfSpec AfBound AfMore Weights WeightSpec WeightBlockProofs Block BlockSpec BlockProofs BlockEnc.
From Coq Require Import ZifyNat ZifyN.

Lemma keeps_of_reads c bits nRows nAnt ants g b packed sym rt (good : _ -> _ -> _ -> Prop) : block_reads c bits nRows nAnt ants g b packed sym rt ->
  (forall m s, encode c g nAnt b (floats (nMetaFloats c nRows nAnt) packed) sym = Ok (m, s) ->
   forall r row out, nth_error b r = Some row -> rt (floats (nMetaFloats c nRows nAnt) packed) sym r = Ok out -> good m row out) ->
  block_keeps c bits nRows nAnt ants g b packed sym good.
Proof.
  intros (block & p' & s' & E & L & _ & _ & EM & H) G. exists block, (p', s'). split; [exact E|]. split; [exact L|].
  intros sym0 L0. destruct (H sym0 L0) as (rows & El & _ & Hr). exists rows. split; [exact El|]. intros r row Nr.
  destruct (Hr r) as (out & No & Eo); [apply nth_error_Some; congruence|]. exists out. split; [exact No|]. exact (G _ _ EM r row out Nr Eo).
Qed.

Section Visibilities.
Variables (e : encoder) (bits : N) (nPol nChan nRows nAnt : nat) (L : f32).
Hypotheses (HB : bit_encoder e bits) (V : levels e L).
Let n := nPol * nChan.
Let W : well_formed e := lv_wf e L V.
Let EL : MaxQuantity e = Ok L := lv_max e L V.

Lemma row_keeps ants (g : nat -> Z) (b : tbb cf) packed sym : rows_of n b -> length b <= nRows ->
  thread_buffers (row_codec e nPol nChan) bits nRows nAnt packed sym ->
  block_keeps (row_codec e nPol nChan) bits nRows nAnt ants g b packed sym (fun _ => row_good e L n).
Proof.
  intros R Hl T. eapply keeps_of_reads; [exact (row_block e bits nPol nChan nRows nAnt L HB W EL ants g b packed sym R Hl T)|].
  intros m s _ r row out Nr Eo. cbv beta in Eo. destruct T as (_ & Ls & _ & _). unfold nSymbols in Ls. cbn [row_codec symbolCount] in Ls.
  set (meta := floats _ packed) in Eo. assert (Lm : length b <= length meta) by (unfold meta; rewrite floats_length; exact Hl).
  assert (LS : SymbolCount (length b) nPol nChan <= length (map N.to_nat sym)) by (rewrite map_length, Ls, !count_of; nia).
  destruct (row_nonfinite e nPol nChan (Some g) b meta (map N.to_nat sym) L r row W EL R Lm LS Nr) as (out' & E' & NF).
  rewrite Eo in E'. injection E' as <-. split; [|split; [exact NF|]].
  - unfold row_roundtrip in Eo. destruct (row_encode _ _ _ _ _ _ _) as [[m' s']| |]; try discriminate Eo. cbn [bind] in Eo. destruct (row_init _ _) as [fs| |]; try discriminate Eo. cbn [bind] in Eo.
    unfold row_decode, decode_row in Eo. apply mapM_inv, Forall2_len in Eo. now rewrite seq_length in Eo.
  - intros M LM B1 B2 i v im Nv Cv Fv. destruct (row_bound e nPol nChan g b meta (map N.to_nat sym) L r row M V R Lm LS Nr LM B1 B2) as (out' & E' & _ & H).
    rewrite Eo in E'. injection E' as <-. destruct (H i v im Nv Cv Fv) as (w & j & lo & hi & Nw & Fw & Nl & Nh & B). exists w. split; [exact Nw|].
    split; [exact Fw|]. exists j, lo, hi. split; [exact Nl|]. split; [exact Nh|]. exact B.
Qed.

Lemma rf_keeps ants (g : nat -> Z) (b : tbb cf) packed sym : rows_of n b -> length b <= nRows ->
  thread_buffers (rf_codec e nPol nChan) bits nRows nAnt packed sym ->
  block_keeps (rf_codec e nPol nChan) bits nRows nAnt ants g b packed sym (fun _ => rf_good e L nPol n b).
Proof.
  intros R Hl T. eapply keeps_of_reads; [exact (rf_block e bits nPol nChan nRows nAnt L HB W EL ants g b packed sym R Hl T)|].
  intros m s _ r row out Nr Eo. cbv beta in Eo. destruct T as (_ & Ls & _ & _). unfold nSymbols in Ls. cbn [rf_codec symbolCount] in Ls.
  set (meta := floats _ packed) in Eo. assert (Lm : rf_MetaDataCount (length b) nPol nChan 0 <= length meta).
  { unfold meta. rewrite floats_length. unfold nMetaFloats. cbn [rf_codec metaDataFloatCount]. unfold rf_MetaDataCount. apply Nat.mul_le_mono_l. lia. }
  assert (LS : SymbolCount (length b) nPol nChan <= length (map N.to_nat sym)) by (rewrite map_length, Ls, !count_of; nia).
  destruct (rf_nonfinite e nPol nChan (Some g) b meta (map N.to_nat sym) L r row W EL R Lm LS Nr) as (out' & E' & NF).
  rewrite Eo in E'. injection E' as <-.
  destruct (rf_bound e L V nPol nChan g b meta (map N.to_nat sym) r row R Lm LS Nr) as (out' & E' & Lo & H). rewrite Eo in E'. injection E' as <-.
  split; [exact Lo|]. split; [exact NF|].
  intros i v im M rho kappa Nv Cv Fv LM LR SK B1 B2. destruct (H i v im M rho kappa Nv Cv Fv LM LR SK B1 B2) as (w & j & lo & hi & Nw & Fw & Nl & Nh & B). exists w. split; [exact Nw|].
  split; [exact Fw|]. exists j, lo, hi. split; [exact Nl|]. split; [exact Nh|]. exact B.
Qed.

Lemma af_keeps ants (g : nat -> Z) (b : tbb cf) packed sym : rows_of n b -> antennas_below nAnt b -> 0 < nChan -> b <> [] -> length b <= nRows -> (Z.of_nat (length b) <= 2 ^ 50)%Z ->
  (forall r, r < nRows -> fst (ants r) < nAnt /\ snd (ants r) < nAnt) -> (forall r row, nth_error b r = Some row -> ants r = (antenna1 row, antenna2 row)) ->
  thread_buffers (af_codec e nPol nChan) bits nRows nAnt packed sym ->
  block_keeps (af_codec e nPol nChan) bits nRows nAnt ants g b packed sym (fun meta => af_good e L nPol n nAnt b meta).
Proof.
  intros R A Hc Nb Hl H50 HA HA' T.
  assert (FL : is_finite L = true) by exact (levels_finite e L V).
  eapply keeps_of_reads; [exact (af_block e bits nPol nChan nRows nAnt L HB W EL ants g b packed sym FL (lv_pos e L V) R A Hc Nb Hl HA HA' T)|].
  intros m s EE r row out Nr Eo. cbv beta in Eo. destruct T as (_ & Ls & _ & _). unfold nSymbols in Ls. cbn [af_codec symbolCount] in Ls.
  set (meta := floats _ packed) in *. assert (Lm : af_MetaDataCount (length b) nPol nChan nAnt <= length meta) by (unfold meta; now rewrite floats_length).
  assert (LS : SymbolCount (length b) nPol nChan <= length (map N.to_nat sym)) by (rewrite map_length, Ls, !count_of; nia).
  destruct (af_nonfinite (S (nChan + nAnt)) e nPol nChan nAnt (Some g) b meta (map N.to_nat sym) L r row W EL FL (lv_pos e L V) R A Hc (Nat.lt_succ_diag_r _) Lm LS Nr) as (out' & E' & NF).
  rewrite E' in Eo. injection Eo as <-.
  destruct (af_bound (S (nChan + nAnt)) e nPol nChan nAnt g b meta (map N.to_nat sym) L r row V R A Hc (Nat.lt_succ_diag_r _) Lm LS H50 Nr) as (meta' & sym' & out & Ee & Er & Lo & H).
  rewrite E' in Er. injection Er as <-.
  cbn [af_codec encode] in EE. rewrite Ee in EE. cbn [with_nat bind] in EE. injection EE as <- _.
  split; [exact Lo|]. split; [exact NF|].
  intros i v im c a1 a2 Nv Cv Fv Sg Nc Uc N1 U1 N2 U2 x phi tol B1 B2.
  destruct (H i v im c a1 a2 Nv Cv Fv Sg Nc Uc N1 U1 N2 U2 B1 B2) as (_ & w & j & lo & hi & Nw & Fw & Nl & Nh & B). exists w. split; [exact Nw|].
  split; [exact Fw|]. exists j, lo, hi. split; [exact Nl|]. split; [exact Nh|]. exact B.
Qed.
End Visibilities.

Lemma weight_keeps nPol nChan bits nRows nAnt ants (b : tbb f32) packed sym : supported bits ->
  regular nPol nChan (map (@visibilities f32) b) -> Forall (Forall nonneg) (map (@visibilities f32) b) -> length b <= nRows ->
  thread_buffers (weight_codec nPol nChan bits) bits nRows nAnt packed sym ->
  exists m, largest_weight nPol nChan (map (@visibilities f32) b) m /\
    block_keeps (weight_codec nPol nChan bits) bits nRows nAnt ants tt b packed sym (fun meta row out => meta = [m] /\ weights_good nPol nChan bits m row out).
Proof.
  intros Sb Rg Nn Hl T.
  assert (Hq : (2 <= 2 ^ Z.of_N bits <= 65536)%Z).
  { destruct (supported_cases bits Sb) as [-> |[-> |[-> |[-> |[-> |[-> |[-> | ->]]]]]]]; vm_compute; split; discriminate. }
  destruct (weights_roundtrip nPol nChan (2 ^ Z.of_N bits) (map (@visibilities f32) b) Rg Nn Hq) as (m & ss & E & Lss & _ & Fm & Pm & HD & HL).
  exists m. split; [split; [exact Fm|split; [exact Pm|exact HL]]|].
  eapply keeps_of_reads; [exact (weight_block nPol nChan bits nRows nAnt ants b packed sym Sb Rg Nn Hl T)|].
  intros m' s EE r row out Nr Eo. cbv beta in Eo. unfold weights_readback in Eo. rewrite E in Eo. cbn [bind] in Eo.
  split.
  - cbn [weight_codec encode] in EE. rewrite E in EE. cbn [bind] in EE. unfold nMetaFloats in EE. cbn [weight_codec metaDataFloatCount floats] in EE.
    cbn [wr upd bind length Nat.ltb Nat.leb] in EE. destruct (wrs sym 0 ss); try discriminate EE. cbn [bind] in EE. now injection EE as <- _.
  - destruct (HD r (visibilities row)) as (out' & Eo' & Lo & H); [now apply map_nth_error|]. rewrite Eo in Eo'. injection Eo' as <-. split; [exact Lo|exact H].
Qed.
