(** Property theorems C77: the range of an encoder.  Statements only. *)
From Verif Require Import Base Floats FloatLemmas Dictionary DictSpec DictionaryProofs StochasticEncoder EncSpec EncRange.

(** the finite quantities lie between MinQuantity and MaxQuantity, which are those of the first
    and the last of their symbols *)
Theorem C77_levels : forall e, well_formed e -> exists lo hi, MinQuantity e = Ok lo /\ MaxQuantity e = Ok hi /\ Bltb lo hi = true /\
  Decode e 0 = Ok lo /\ Decode e (QuantizationCount e - 2) = Ok hi /\
  forall s, (s < QuantizationCount e - 1)%nat -> exists x, Decode e s = Ok x /\ Bleb lo x = true /\ Bleb x hi = true.
Proof. exact levels_range. Qed.
Print Assumptions C77_levels.

(** values outside the range become the nearest end of it, whatever random number is drawn *)
Theorem C77_below : forall e v lo d, well_formed e -> is_finite v = true -> MinQuantity e = Ok lo -> Bleb v lo = true ->
  exists s, EncodeWithDithering e v d = Ok s /\ Decode e s = Ok lo.
Proof. intros e v lo d W F M L. exists 0%nat. exact (proj2 (saturates_low e W v lo d F M L)). Qed.
Print Assumptions C77_below.

Theorem C77_above : forall e v hi d, well_formed e -> is_finite v = true -> MaxQuantity e = Ok hi -> Bltb hi v = true ->
  exists s, EncodeWithDithering e v d = Ok s /\ Decode e s = Ok hi.
Proof. intros e v hi d W. exact (saturates_high e W v hi d). Qed.
Print Assumptions C77_above.

(** The assertion of Dictionary::symbol does not hold for the values up to the first boundary,
    and with dithering for the values up to the first level: a build without NDEBUG stops at a
    value that is encoded rightly. *)
Theorem C77_assert_refuted : forall e v, well_formed e -> is_finite v = true ->
  exists r b, lower_bound false (enc e) v = Ok r /\ Encode e v = Ok (symbol r) /\
  nth_error (enc e) 0 = Some b /\ (symbol_assert r = false <-> Bleb v b = true).
Proof. intros e v W. exact (assert_encode e W v). Qed.
Print Assumptions C77_assert_refuted.

Theorem C77_assert_dithered_refuted : forall e v lo d, well_formed e -> is_finite v = true -> MinQuantity e = Ok lo -> Bleb v lo = true ->
  lower_bound false (dec e) v = Ok 0%nat /\ EncodeWithDithering e v d = Ok (symbol 0) /\ symbol_assert 0 = false.
Proof. intros e v lo d W F M L. destruct (saturates_low e W v lo d F M L) as (A & B & _). exact (conj A (conj B eq_refl)). Qed.
Print Assumptions C77_assert_dithered_refuted.

(** levels -2, 0, 3 with boundaries -1, 1 *)
Definition range_enc : encoder :=
  Encoder [dy (-1) 0; dy 1 0; max32] [dy (-1) 1; dy 0 0; dy 3 0] [nan32].
Example C77_example : well_formed range_enc /\
  Encode range_enc (dy (-1) 0) = Ok 0%nat /\ symbol_assert 0 = false /\ Encode range_enc (dy 0 0) = Ok 1%nat /\
  EncodeWithDithering range_enc (dy (-5) 0) 7 = Ok 0%nat /\ EncodeWithDithering range_enc (dy 5 4) 7 = Ok 2%nat /\
  MinQuantity range_enc = Ok (dy (-1) 1) /\ MaxQuantity range_enc = Ok (dy 3 0).
Proof.
  split; [|repeat split; vm_compute; reflexivity]. constructor; try reflexivity.
  - cbn; lia.
  - apply sorted_dec; vm_compute; reflexivity.
  - apply strictly_sorted_dec; vm_compute; reflexivity.
  - repeat constructor.
  - now exists [].
Qed.
