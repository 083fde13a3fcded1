(** Columns as programs set them up: encoders, managers.  Proof file. *)
From Coq Require Import Reals Lra Lia String.
From Flocq Require Import Core IEEE754.Bits.
From Flocq Require Binary.
From Verif Require Import Base BaseLemmas Floats TimeBlockBuffer BytePacker File StMan StManSpec.
From Verif Require Import BitStream StochasticEncoder EncSpec EncoderTables EncoderCtorProofs NormalSpec TableSpec GaussianTable StudentTable UniformTable
  TimeBlockEncoders TbeSpec Weights WeightSpec Block BlockSpec Column ColumnSpec StoredColumn System SystemSpec Production ProductionSpec.
From Coq Require Import ZifyNat ZifyN.
Local Open Scope N_scope.

Lemma double_of_bits x : double_of (double_bits x) = x.
Proof.
  unfold double_of, double_bits, bits_of_b64. pose proof (bits_of_binary_float_range 52 11 eq_refl eq_refl (Binary.BSN2B 53 1024 nan_bits64 x)) as R.
  rewrite Z2N.id by apply R. unfold b64_of_bits. rewrite binary_float_of_bits_of_binary_float. now destruct x.
Qed.

Lemma double_bits_small x : double_bits x < 2 ^ 64.
Proof.
  unfold double_bits, bits_of_b64. pose proof (bits_of_binary_float_range 52 11 eq_refl eq_refl (Binary.BSN2B 53 1024 nan_bits64 x)) as R.
  change (2 ^ (52 + 11 + 1))%Z with (2 ^ 64)%Z in R. lia.
Qed.

(** ** The encoder *)
Lemma supported_count b : supported b -> (3 <= N.to_nat (2 ^ b))%nat /\ (Z.of_nat (N.to_nat (2 ^ b)) <= 65536)%Z /\ b < 17.
Proof. intros H. repeat (destruct H as [<-|H]; [cbn; repeat split; lia|]). destruct H. Qed.

Lemma construct_any q bnd val ea da ea' da' : (2 <= q)%nat -> length ea = (q - 1)%nat -> length da = q -> length ea' = (q - 1)%nat -> length da' = q ->
  construct q bnd val ea' da' = construct q bnd val ea da.
Proof. intros Hq H1 H2 H3 H4. now rewrite !construct_ok. Qed.

Lemma encoder_table Phi T d G m : settings_ok Phi T d G m ->
  exists e L, encoder_of G m e /\ levels e L /\ bit_encoder e (dataBitCount m) /\ table_of (quantiles Phi T m) (quantCount m) e.
Proof.
  intros (Sd & _ & _ & Np & H). destruct (supported_count _ Sd) as (Q1 & Q2 & Q3). fold (quantCount m) in Q1, Q2. set (q := quantCount m) in *.
  assert (Fin : forall e, QuantizationCount e = q -> bit_encoder e (dataBitCount m)).
  { intros e E. split; trivial. rewrite E. unfold q, quantCount. apply N2Nat.id. }
  assert (Lb : (31 <=? dataBitCount m) = false) by (apply N.leb_gt; lia).
  assert (L1 : length (repeat nan32 (q - 1)) = (q - 1)%nat) by apply repeat_length. assert (L2 : length (repeat nan32 q) = q) by apply repeat_length.
  destruct H as [(E & H)|[E|[(E & Pk & H)|(E & H)]]].
  - destruct (gaussian_table Phi Np (gsl_sf_erf G) H q Q1 Q2 _ _ L1 L2) as (n & e & Ge & Te). destruct (to_levels _ _ _ Te) as (L & Hl).
    exists e, L. split; [|split; [exact Hl|split; [exact (Fin e (to_count _ _ _ Te))|]]]; [|unfold quantiles; rewrite E; exact Te]. exists n. intros fuel ea da Hf Ha Hd. fold q in Ha, Hd.
    unfold Prepare_encoder. rewrite Lb, E. cbn [N.eqb]. fold q. specialize (Ge fuel Hf). unfold gaussian_encoder in *.
    destruct (entries _ 1 _) as [bnd|]; [|discriminate]. destruct (entries _ 0 _) as [val|]; [|discriminate]. rewrite <- Ge. f_equal. apply construct_any; trivial. lia.
  - destruct (uniform_table q Q1 Q2 _ _ L1 L2) as (e & Ge & Te). destruct (to_levels _ _ _ Te) as (L & Hl).
    exists e, L. split; [|split; [exact Hl|split; [exact (Fin e (to_count _ _ _ Te))|]]]; [|unfold quantiles; rewrite E; exact Te]. exists 0%nat. intros fuel ea da _ Ha Hd. fold q in Ha, Hd.
    unfold Prepare_encoder. rewrite Lb, E. change (1 =? 0) with false. change (1 =? 1) with true. fold q. rewrite <- Ge. f_equal. apply construct_any; trivial. lia.
  - destruct (student_table q Q1 Q2 _ _ L1 L2 T d Pk (gsl_cdf_tdist_Pinv G) (double_of (studentTNu m)) H) as (e & Ge & Te). destruct (to_levels _ _ _ Te) as (L & Hl).
    exists e, L. split; [|split; [exact Hl|split; [exact (Fin e (to_count _ _ _ Te))|]]]; [|unfold quantiles; rewrite E; exact Te]. exists 0%nat. intros fuel ea da _ Ha Hd. fold q in Ha, Hd.
    unfold Prepare_encoder. rewrite Lb, E. change (2 =? 0) with false. change (2 =? 1) with false. change (2 =? 2) with true. fold q. rewrite <- Ge. f_equal. apply construct_any; trivial. lia.
  - destruct H as (Ft & Ht & Fp & Ep & H).
    destruct (truncated_table q Q1 Q2 _ _ L1 L2 Phi Np (gsl_cdf_gaussian_P G) (gsl_cdf_gaussian_Pinv G) (double_of (truncation m)) Ht (conj Fp Ep) H) as (e & Ge & Te). destruct (to_levels _ _ _ Te) as (L & Hl).
    exists e, L. split; [|split; [exact Hl|split; [exact (Fin e (to_count _ _ _ Te))|]]]; [|unfold quantiles; rewrite E; exact Te]. exists 0%nat. intros fuel ea da _ Ha Hd. fold q in Ha, Hd.
    unfold Prepare_encoder. rewrite Lb, E. change (3 =? 0) with false. change (3 =? 1) with false. change (3 =? 2) with false. change (3 =? 3) with true. fold q. rewrite <- Ge. f_equal. apply construct_any; trivial. lia.
Qed.

Lemma encoder_exists Phi T d G m : settings_ok Phi T d G m -> exists e L, encoder_of G m e /\ levels e L /\ bit_encoder e (dataBitCount m).
Proof. intros H. destruct (encoder_table Phi T d G m H) as (e & L & H1 & H2 & H3 & _). exists e, L. auto. Qed.

Lemma encoder_unique G m e e' : encoder_of G m e -> encoder_of G m e' -> e' = e.
Proof.
  intros (n & H) (n' & H'). assert (Some (Ok e') = Some (Ok e)); [|congruence].
  rewrite <- (H (n + n') (repeat nan32 (quantCount m - 1)) (repeat nan32 (quantCount m)))%nat by (rewrite ?repeat_length; trivial; lia).
  symmetry. apply H'; rewrite ?repeat_length; trivial. lia.
Qed.

(** ** The columns depend on the settings only *)
Lemma encoder_same G m m' e : same_options m m' -> encoder_of G m e -> encoder_of G m' e.
Proof.
  intros (_ & E1 & E2 & E3 & E4 & E5 & E6) (n & H). exists n. intros fuel ea da. specialize (H fuel ea da). unfold Prepare_encoder, quantCount in *. now rewrite E1, E3, E5, E6.
Qed.

Lemma prepared_same G m m' col c : same_options m m' -> prepared G m col c -> prepared G m' col c.
Proof.
  intros So H. pose proof So as (_ & E1 & E2 & E3 & E4 & E5 & E6). unfold prepared in *.
  assert (P : forall e, Prepare_data m' e (N.to_nat (co_nPol col)) (N.to_nat (co_nChan col)) = Prepare_data m e (N.to_nat (co_nPol col)) (N.to_nat (co_nChan col))) by (intros e; unfold Prepare_data; now rewrite E1, E4).
  destruct (co_kind col); try (destruct H as (e & H1 & H2); exists e; split; [now apply (encoder_same G m)|now rewrite P]).
  unfold Prepare_weight in *. now rewrite E2.
Qed.

Lemma prepared_shape G m col col' c : co_kind col' = co_kind col -> co_nPol col' = co_nPol col -> co_nChan col' = co_nChan col -> prepared G m col c -> prepared G m col' c.
Proof. intros E1 E2 E3. unfold prepared. now rewrite E1, E2, E3. Qed.

Lemma prepared_unique G m col c c' : prepared G m col c -> prepared G m col c' -> c' = c.
Proof.
  unfold prepared. intros H H'. destruct (co_kind col); try (destruct H as (e & H1 & H2), H' as (e' & H1' & H2'); rewrite (encoder_unique G m e e' H1 H1') in H2'; congruence). congruence.
Qed.

Lemma config_prepared G m e : encoder_of G m e -> normalization m < 3 -> all_prepared G m (config m e).
Proof.
  intros He Hn i col Hc. unfold prepared, config. rewrite Hc. set (p := N.to_nat (co_nPol col)). set (n := N.to_nat (co_nChan col)).
  assert (X : exists c, Prepare_data m e p n = Some c).
  { unfold Prepare_data. destruct (N.eqb_spec (normalization m) 0); [eauto|]. destruct (N.eqb_spec (normalization m) 1); [eauto|]. destruct (N.eqb_spec (normalization m) 2); [eauto|lia]. }
  destruct X as (c & X). rewrite X. destruct (co_kind col); trivial; exists e; split; trivial.
Qed.

Lemma prepared_ok G m e L col c : encoder_of G m e -> levels e L -> bit_encoder e (dataBitCount m) -> supported (weightBitCount m) -> prepared G m col c -> coldef_ok c L.
Proof.
  intros He Hl Hb Hw. unfold prepared.
  assert (D : forall e' p n, encoder_of G m e' -> Prepare_data m e' p n = Some c -> coldef_ok c L).
  { intros e' p n H1 H2. rewrite (encoder_unique G m e e' He H1) in H2. unfold Prepare_data in H2. destruct (_ =? 0); [injection H2 as <-; now split|]. destruct (_ =? 1); [injection H2 as <-; now split|].
    destruct (_ =? 2); [injection H2 as <-; now split|discriminate]. }
  destruct (co_kind col); try (intros (e' & H1 & H2); eauto). intros ->. exact Hw.
Qed.

Lemma config_ok G m e L i : encoder_of G m e -> levels e L -> bit_encoder e (dataBitCount m) -> supported (weightBitCount m) -> normalization m < 3 -> coldef_ok (config m e i) L.
Proof.
  intros He Hl Hb Hw Hn. destruct (nth_error (columns m) i) as [col|] eqn:E.
  - apply (prepared_ok G m e L col); trivial. now apply config_prepared.
  - unfold config. rewrite E. exact Hw.
Qed.
