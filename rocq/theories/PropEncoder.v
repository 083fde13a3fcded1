(** Property theorems C08-C14, C46, C47: StochasticEncoder.  Statements only. *)
From Coq Require Import Reals Lra.
From Flocq Require Import Core.
From Verif Require Import Base Floats FloatLemmas Dictionary DictSpec DictionaryProofs StochasticEncoder EncSpec
  StochasticEncoderProofs DitherProofs EncoderCtorProofs.
Local Open Scope R_scope.

(** three levels -2, 0, 3 with boundaries -1, 1 *)
Definition ex_enc : encoder :=
  Encoder [lit32 (-1) 0; lit32 1 0; max32] [lit32 (-1) 1; lit32 0 0; lit32 3 0] [nan32].

Lemma ex_enc_wf : well_formed ex_enc.
Proof.
  constructor; try reflexivity.
  - cbn; lia.
  - apply sorted_dec; vm_compute; reflexivity.
  - apply strictly_sorted_dec; vm_compute; reflexivity.
  - repeat constructor.
  - now exists [].
Qed.

(** C08 *)
Theorem C08_encode_interval : forall e v, well_formed e -> is_finite v = true ->
  exists s b, Encode e v = Ok s /\ (s < QuantizationCount e - 1)%nat /\
    nth_error (enc e) s = Some b /\ Bleb v b = true /\
    (forall i c, (i < s)%nat -> nth_error (enc e) i = Some c -> Bltb c v = true).
Proof. intros e v W. exact (encode_interval e W v). Qed.
Print Assumptions C08_encode_interval.

Theorem C08_encode_monotone : forall e v v' s s', well_formed e ->
  is_finite v = true -> is_finite v' = true -> Bleb v v' = true ->
  Encode e v = Ok s -> Encode e v' = Ok s' -> (s <= s')%nat.
Proof. intros e v v' s s' W. exact (encode_mono e W v v' s s'). Qed.
Print Assumptions C08_encode_monotone.

(** the largest finite float is not mistaken for an infinity *)
Example C08_example : well_formed ex_enc /\
  Encode ex_enc max32 = Ok 2%nat /\ Encode ex_enc (lit32 1 0) = Ok 1%nat /\ Encode ex_enc (lit32 (-7) 0) = Ok 0%nat.
Proof. split; [exact ex_enc_wf|]. repeat split; vm_compute; reflexivity. Qed.

(** C09 *)
Theorem C09_encode_reserved : forall e v, well_formed e ->
  exists s, Encode e v = Ok s /\ (s < QuantizationCount e)%nat /\
    ((s = QuantizationCount e - 1)%nat <-> is_finite v = false).
Proof. exact encode_reserved_total. Qed.
Print Assumptions C09_encode_reserved.

Theorem C09_dither_reserved : forall e v d, well_formed e ->
  exists s, EncodeWithDithering e v d = Ok s /\ (s < QuantizationCount e)%nat /\
    ((s = QuantizationCount e - 1)%nat <-> is_finite v = false).
Proof. exact dither_reserved_total. Qed.
Print Assumptions C09_dither_reserved.

Theorem C09_decode_reserved : forall e s, well_formed e -> (s < QuantizationCount e)%nat ->
  exists x, Decode e s = Ok x /\ (is_finite x = false <-> s = (QuantizationCount e - 1)%nat) /\
    (s = (QuantizationCount e - 1)%nat -> is_nan x = true).
Proof. exact decode_reserved_total. Qed.
Print Assumptions C09_decode_reserved.

Example C09_example :
  Encode ex_enc (B754_infinity true) = Ok 3%nat /\
  EncodeWithDithering ex_enc nan32 5 = Ok 3%nat /\
  Decode ex_enc 3 = Ok nan32 /\ QuantizationCount ex_enc = 4%nat.
Proof. repeat split; vm_compute; reflexivity. Qed.

(** C10 *)
Theorem C10_dither_brackets : forall e v d, well_formed e -> is_finite v = true ->
  exists s x, EncodeWithDithering e v d = Ok s /\ nth_error (dec e) s = Some x /\ Decode e s = Ok x /\
  ( (s = 0%nat /\ Bleb v x = true)
  \/ (s = (length (dec e) - 1)%nat /\ Bltb x v = true)
  \/ (exists y, nth_error (dec e) (s + 1) = Some y /\ Bltb x v = true /\ Bleb v y = true)
  \/ (exists y, (0 < s)%nat /\ nth_error (dec e) (s - 1) = Some y /\ Bltb y v = true /\ Bleb v x = true)).
Proof. intros e v d W. exact (dither_bracket e W v d). Qed.
Print Assumptions C10_dither_brackets.

Theorem C10_dither_monotone_value : forall e v v' d s s', well_formed e ->
  is_finite v = true -> is_finite v' = true -> Bleb v v' = true -> (0 <= d)%Z ->
  EncodeWithDithering e v d = Ok s -> EncodeWithDithering e v' d = Ok s' -> (s <= s')%nat.
Proof. exact dither_mono_value. Qed.
Print Assumptions C10_dither_monotone_value.

Theorem C10_dither_antitone : forall e v d d' s s', well_formed e -> is_finite v = true -> (d <= d')%Z ->
  EncodeWithDithering e v d = Ok s -> EncodeWithDithering e v d' = Ok s' -> (s' <= s)%nat.
Proof. exact dither_anti. Qed.
Print Assumptions C10_dither_antitone.

Example C10_example :
  EncodeWithDithering ex_enc (lit32 1 0) 5 = Ok 2%nat /\
  EncodeWithDithering ex_enc (lit32 1 0) (2 ^ 30) = Ok 1%nat /\
  EncodeWithDithering ex_enc (lit32 9 0) 5 = Ok 2%nat.
Proof. repeat split; vm_compute; reflexivity. Qed.

(** C11: 2^-22 of the gap, any gap up to 2^96 *)
Theorem C11_dither_unbiased : forall e k lv rv v, well_formed e ->
  nth_error (dec e) k = Some lv -> nth_error (dec e) (S k) = Some rv ->
  is_finite v = true -> Bltb lv v = true -> Bleb v rv = true ->
  B2R rv - B2R lv <= bpow radix2 96 ->
  Rabs (mean (dithered e v) dithers - B2R v) <= bpow radix2 (-22) * (B2R rv - B2R lv).
Proof. exact dither_unbiased. Qed.
Print Assumptions C11_dither_unbiased.

Example C11_example :
  Rabs (mean (dithered ex_enc (lit32 1 0)) dithers - 1) <= bpow radix2 (-22) * 3.
Proof.
  assert (V : B2R (lit32 1 0) = 1) by (replace 1 with (IZR 1 * bpow radix2 0) by (cbn; lra); apply (dy_exact 1 0); lia).
  assert (V3 : B2R (lit32 3 0) = 3) by (replace 3 with (IZR 3 * bpow radix2 0) by (cbn; lra); apply (dy_exact 3 0); lia).
  assert (V0 : B2R (lit32 0 0) = 0) by reflexivity.
  pose proof (dither_unbiased ex_enc 1 (lit32 0 0) (lit32 3 0) (lit32 1 0) ex_enc_wf eq_refl eq_refl eq_refl eq_refl eq_refl) as H.
  rewrite V, V3, V0, Rminus_0_r in H. apply H.
  change 3 with (IZR 3). apply Rle_trans with (bpow radix2 2); [cbn; lra|apply bpow_le; lia].
Qed.

(** C12: exact result for every dither value; the level is kept for all but the
    64 largest of the 2^31 dither values *)
Theorem C12_level_dithered : forall e k x, well_formed e -> nth_error (dec e) (S k) = Some x ->
  (forall y, nth_error (dec e) k = Some y -> B2R x - B2R y <= bpow radix2 96) ->
  forall d, (0 <= d < 2 ^ 31)%Z ->
  EncodeWithDithering e x d = Ok (if (d <? 2 ^ 31 - 64)%Z then S k else k).
Proof. exact level_preserved. Qed.
Print Assumptions C12_level_dithered.

Theorem C12_first_level : forall e x, well_formed e -> nth_error (dec e) 0 = Some x ->
  forall d, EncodeWithDithering e x d = Ok 0%nat.
Proof. exact first_level_preserved. Qed.
Print Assumptions C12_first_level.

Theorem C12_all_dithers_refuted : exists e s x d, well_formed e /\ nth_error (dec e) s = Some x /\
  (0 <= d < 2 ^ 31)%Z /\ EncodeWithDithering e x d <> Ok s.
Proof.
  exists ex_enc, 1%nat, (lit32 0 0), (2 ^ 31 - 1)%Z. split; [exact ex_enc_wf|]. split; [reflexivity|].
  split; [lia|]. vm_compute. discriminate.
Qed.
Print Assumptions C12_all_dithers_refuted.

Example C12_example :
  EncodeWithDithering ex_enc (lit32 3 0) (2 ^ 31 - 65) = Ok 2%nat /\
  EncodeWithDithering ex_enc (lit32 3 0) (2 ^ 31 - 64) = Ok 1%nat.
Proof. split; vm_compute; reflexivity. Qed.

(** C13 *)
Theorem C13_move_decodes : forall e s, Decode (move_encoder e) s = Decode e s.
Proof. reflexivity. Qed.
Print Assumptions C13_move_decodes.

Theorem C13_copy_decodes_finite : forall e s, well_formed e -> (s < QuantizationCount e - 1)%nat ->
  Decode (copy_encoder e) s = Decode e s.
Proof. exact copy_decodes. Qed.
Print Assumptions C13_copy_decodes_finite.

(** every copied encoder reads outside its allocation for the reserved symbol *)
Theorem C13_copy_refuted : (exists e, well_formed e) /\
  forall e, well_formed e -> Decode e (QuantizationCount e - 1) = Ok nan32 /\
    Decode (copy_encoder e) (QuantizationCount e - 1) = UB.
Proof. split; [exists ex_enc; exact ex_enc_wf|exact copy_reserved_ub]. Qed.
Print Assumptions C13_copy_refuted.

Example C13_example : well_formed ex_enc /\
  map (Decode ex_enc) [0; 1; 2; 3]%nat = map (Decode (move_encoder ex_enc)) [0; 1; 2; 3]%nat /\
  Decode (copy_encoder ex_enc) 2 = Decode ex_enc 2 /\ Decode ex_enc 2 = Ok (lit32 3 0) /\
  Decode ex_enc 3 = Ok nan32 /\ Decode (copy_encoder ex_enc) 3 = UB.
Proof. split; [exact ex_enc_wf|]. repeat split. Qed.

(** C14 *)
Theorem C14_right_boundary : forall e s, well_formed e -> (s < QuantizationCount e - 1)%nat ->
  exists b, RightBoundary e s = Ok b /\
  forall v t, is_finite v = true -> Encode e v = Ok t -> ((t <= s)%nat <-> Bleb v b = true).
Proof. exact right_boundary_sep. Qed.
Print Assumptions C14_right_boundary.

(** the documentation "smallest value not quantized to the symbol" *)
Theorem C14_documentation_refuted : exists e s b, well_formed e /\
  RightBoundary e s = Ok b /\ is_finite b = true /\ Encode e b = Ok s.
Proof.
  exists ex_enc, 1%nat, (lit32 1 0). split; [exact ex_enc_wf|]. repeat split; vm_compute; reflexivity.
Qed.
Print Assumptions C14_documentation_refuted.

Example C14_example : RightBoundary ex_enc 0 = Ok (lit32 (-1) 0) /\ RightBoundary ex_enc 3 = Ok (B754_zero false).
Proof. split; reflexivity. Qed.

(** C46: the constructors never write outside their allocations and build
    well-formed tables whenever the quantiles they store are ordered *)
Theorem C46_constructor_well_formed : forall quantCount bnd val ea da,
  (3 <= quantCount)%nat -> length ea = (quantCount - 1)%nat -> length da = quantCount ->
  (forall i, (1 <= i < quantCount - 1)%nat -> is_finite (bnd i) = true) ->
  (forall i j, (1 <= i < j)%nat -> (j < quantCount - 1)%nat -> Bleb (bnd i) (bnd j) = true) ->
  (forall i, (i < quantCount - 1)%nat -> is_finite (val i) = true) ->
  (forall i j, (i < j)%nat -> (j < quantCount - 1)%nat -> Bltb (val i) (val j) = true) ->
  exists e, construct quantCount bnd val ea da = Ok e /\ well_formed e /\ QuantizationCount e = quantCount /\
    (forall i, (i < quantCount - 1)%nat -> Decode e i = Ok (val i)) /\
    (forall i, (i < quantCount - 2)%nat -> RightBoundary e i = Ok (bnd (S i))).
Proof. exact construct_well_formed. Qed.
Print Assumptions C46_constructor_well_formed.

(** the Uniform encoder of the production code (stddev 1), every bit count up to 16 *)
Theorem C46_uniform_well_formed : forall quantCount ea da,
  (3 <= quantCount)%nat -> (Z.of_nat quantCount <= 65536)%Z ->
  length ea = (quantCount - 1)%nat -> length da = quantCount ->
  exists e, uniform_encoder quantCount (of32 1) ea da = Ok e /\ well_formed e /\ QuantizationCount e = quantCount.
Proof. exact uniform_well_formed. Qed.
Print Assumptions C46_uniform_well_formed.

Definition ex_ea : list f32 := [nan32; nan32; nan32].
Definition ex_da : list f32 := [nan32; nan32; nan32; nan32].

Definition on_uniform4 {A} (f : encoder -> A) : option A :=
  match uniform_encoder 4 (of32 1) ex_ea ex_da with Ok e => Some (f e) | _ => None end.

Example C46_example : on_uniform4 (fun e => map B2SF (dec e)) =
  Some [SpecFloat.S754_finite true 9686330 (-23); SpecFloat.S754_zero false; SpecFloat.S754_finite false 9686330 (-23)].
Proof. vm_compute. reflexivity. Qed.

(** C47 *)
Theorem C47_uniform_idempotent : forall quantCount ea da e,
  (3 <= quantCount)%nat -> (Z.of_nat quantCount <= 65536)%Z ->
  length ea = (quantCount - 1)%nat -> length da = quantCount ->
  uniform_encoder quantCount (of32 1) ea da = Ok e ->
  forall s x, (s < quantCount - 1)%nat -> Decode e s = Ok x -> Encode e x = Ok s.
Proof. intros q ea da e H1 H2 H3 H4 He s x. exact (uniform_idempotent q H1 H2 ea da H3 H4 e He s x). Qed.
Print Assumptions C47_uniform_idempotent.

Theorem C47_uniform_zero : forall quantCount ea da e,
  (3 <= quantCount)%nat -> (Z.of_nat quantCount <= 65536)%Z -> Nat.even quantCount = true ->
  length ea = (quantCount - 1)%nat -> length da = quantCount ->
  uniform_encoder quantCount (of32 1) ea da = Ok e ->
  forall v, is_finite v = true -> B2R v = 0 ->
  exists s x, Encode e v = Ok s /\ Decode e s = Ok x /\ B2R x = 0.
Proof. intros q ea da e H1 H2 Hv H3 H4 He v. exact (uniform_zero q H1 H2 ea da H3 H4 e He v Hv). Qed.
Print Assumptions C47_uniform_zero.

(** half a quantization step: the range [-sqrt 3, sqrt 3] is divided in
    [quantCount - 1] steps *)
Theorem C47_uniform_error : forall quantCount ea da e,
  (3 <= quantCount)%nat -> (Z.of_nat quantCount <= 65536)%Z ->
  length ea = (quantCount - 1)%nat -> length da = quantCount ->
  uniform_encoder quantCount (of32 1) ea da = Ok e ->
  forall v, is_finite v = true -> Rabs (B2R v) <= 1.732 ->
  exists s x, Encode e v = Ok s /\ Decode e s = Ok x /\
    Rabs (B2R x - B2R v) <= 1.7321 / IZR (Z.of_nat quantCount - 1) + bpow radix2 (-21).
Proof. exact uniform_error_num. Qed.
Print Assumptions C47_uniform_error.

Example C47_example :
  on_uniform4 (fun e => (Encode e (lit32 1 0), Encode e (lit32 1 (-1)), Encode e (lit32 0 0))) =
  Some (Ok 2%nat, Ok 1%nat, Ok 1%nat).
Proof. vm_compute. reflexivity. Qed.
