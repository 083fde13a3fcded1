(** The range of an encoder, and the assertion of [Dictionary::symbol]. *)
From Verif Require Import Base Floats FloatLemmas Dictionary DictSpec DictionaryProofs StochasticEncoder EncSpec StochasticEncoderProofs.

Section Range.
Variable e : encoder.
Hypothesis W : well_formed e.
Notation n := (length (dec e)).

Lemma range_between s x lo hi : nth_error (dec e) 0 = Some lo -> nth_error (dec e) (n - 1) = Some hi ->
  nth_error (dec e) s = Some x -> Bleb lo x = true /\ Bleb x hi = true.
Proof.
  intros Hlo Hhi Hx. pose proof (dec_sorted e W) as S.
  assert (L : (s < n)%nat) by (apply nth_error_Some; congruence).
  split; [apply (S 0%nat s)|apply (S s (n - 1)%nat)]; trivial; lia.
Qed.

Lemma levels_range : exists lo hi, MinQuantity e = Ok lo /\ MaxQuantity e = Ok hi /\ Bltb lo hi = true /\
  Decode e 0 = Ok lo /\ Decode e (QuantizationCount e - 2) = Ok hi /\
  forall s, (s < QuantizationCount e - 1)%nat -> exists x, Decode e s = Ok x /\ Bleb lo x = true /\ Bleb x hi = true.
Proof.
  pose proof (wf_two e W) as H2.
  destruct (dec_nth e W 0 ltac:(lia)) as (lo & Hlo & _ & Rlo).
  destruct (dec_nth e W (n - 1) ltac:(lia)) as (hi & Hhi & _ & Rhi).
  exists lo, hi. split; [exact Rlo|]. split; [exact Rhi|].
  split; [apply (wf_dec_sorted e W 0%nat (n - 1)%nat); trivial; lia|].
  split; [now apply decode_nth|]. split.
  - replace (QuantizationCount e - 2)%nat with (n - 1)%nat by (unfold QuantizationCount; lia). now apply decode_nth.
  - intros s Hs. destruct (dec_nth e W s) as (x & Hx & _ & _); [unfold QuantizationCount in Hs; lia|].
    exists x. split; [now apply decode_nth|]. now apply (range_between s).
Qed.

Lemma saturates_low v lo d : is_finite v = true -> MinQuantity e = Ok lo -> Bleb v lo = true ->
  lower_bound false (dec e) v = Ok 0%nat /\ EncodeWithDithering e v d = Ok 0%nat /\ Decode e 0 = Ok lo.
Proof.
  intros Hv Hlo L. pose proof (wf_two e W) as H2.
  destruct (dec_nth e W 0 ltac:(lia)) as (x & Hx & _ & Rx). unfold MinQuantity in Hlo. rewrite Rx in Hlo. injection Hlo as <-.
  destruct (lower_bound_correct (dec e) v) as (r & Er & (R1 & R2 & R3)); [lia|apply (dec_sorted e W)|].
  assert (r = 0%nat) as ->.
  { destruct r as [|r]; trivial. pose proof (R2 0%nat x ltac:(lia) Hx) as B.
    pose proof (Bleb_Bltb_trans _ _ _ L B) as C. rewrite Bltb_irrefl in C. discriminate. }
  split; [exact Er|]. split; [|now apply decode_nth]. unfold EncodeWithDithering. now rewrite Hv, Er.
Qed.

Lemma saturates_high v hi d : is_finite v = true -> MaxQuantity e = Ok hi -> Bltb hi v = true ->
  exists s, EncodeWithDithering e v d = Ok s /\ Decode e s = Ok hi.
Proof.
  intros Hv Hhi L. pose proof (wf_two e W) as H2.
  destruct (dec_nth e W (n - 1) ltac:(lia)) as (x & Hx & _ & Rx). unfold MaxQuantity in Hhi. rewrite Rx in Hhi. injection Hhi as <-.
  destruct (lower_bound_correct (dec e) v) as (r & Er & (R1 & R2 & R3)); [lia|apply (dec_sorted e W)|].
  assert (r = n) as ->.
  { destruct (Nat.eq_dec r n) as [->|N]; trivial. exfalso.
    destruct (dec_nth e W r ltac:(lia)) as (y & Hy & Fy & _). pose proof (R3 y Hy) as B.
    assert (Bleb y x = true) as Q by (apply (dec_sorted e W r (n - 1)%nat); trivial; lia).
    pose proof (Bleb_Bltb_trans _ _ _ Q L). congruence. }
  exists (n - 1)%nat. split; [|now apply decode_nth]. unfold EncodeWithDithering. rewrite Hv, Er. cbn [bind].
  destruct (Nat.eqb_spec n 0); [lia|]. now rewrite Nat.eqb_refl.
Qed.

Lemma assert_encode v : is_finite v = true -> exists r b, lower_bound false (enc e) v = Ok r /\ Encode e v = Ok (symbol r) /\
  nth_error (enc e) 0 = Some b /\ (symbol_assert r = false <-> Bleb v b = true).
Proof.
  intros Hv. destruct (encode_finite e W v Hv) as (s & E & Hs & (R1 & R2 & R3)). pose proof (wf_two e W) as H2. pose proof (wf_len e W) as HL.
  destruct (rd_ok (enc e) 0) as (b & Hb & _); [lia|].
  assert (Nb : is_nan b = false).
  { pose proof (wf_enc_sorted e W 0%nat 0%nat b b ltac:(lia) Hb Hb) as G. apply Bleb_true in G. tauto. }
  exists s, b. unfold Encode in E. rewrite Hv in E. destruct (lower_bound false (enc e) v) as [r| |] eqn:Er; try discriminate.
  cbn [bind] in E. unfold symbol in E. injection E as ->. split; trivial. split; [unfold Encode; now rewrite Hv, Er|]. split; trivial.
  unfold symbol_assert. rewrite Nat.ltb_ge. split; intros Q.
  - assert (s = 0%nat) as -> by lia. pose proof (R3 b Hb) as B. apply Bltb_false in B; trivial; [|now apply finite_nan].
    apply Bleb_K; trivial. now apply finite_nan.
  - destruct s as [|s]; trivial. pose proof (R2 0%nat b ltac:(lia) Hb) as B.
    pose proof (Bleb_Bltb_trans _ _ _ Q B) as C. rewrite Bltb_irrefl in C. discriminate.
Qed.
End Range.
