(** Property theorems C16, C17, C48: weights.  Statements only. *)
From Coq Require Import Reals Lra.
From Flocq Require Import Core.
From Verif Require Import Base Floats FloatLemmas Weights WeightSpec WeightProofs WeightBlockProofs WeightMoreProofs.
Local Open Scope R_scope.

(** 2 rows, 2 channels, 2 polarizations *)
Definition ex_block : list row :=
  [ [lit32 1 (-1); lit32 1 0; lit32 0 0; lit32 7 0]; [lit32 3 0; lit32 2 0; lit32 5 (-2); lit32 5 (-2)] ].

Lemma lit_nonneg : forall b, In b ex_block -> Forall nonneg b.
Proof.
  assert (G : forall x : f32, is_finite x = true -> Bsign x = false -> nonneg x).
  { intros x F S. split; trivial. destruct x as [| | |[|] m e B]; try discriminate; cbn; try lra. now apply F2R_ge_0. }
  intros b [<-|[<-|[]]]; repeat (apply Forall_cons; [apply G; vm_compute; reflexivity|]); constructor.
Qed.

Lemma ex_block_ok : regular 2 2 ex_block /\ Forall (Forall nonneg) ex_block.
Proof. split; [repeat constructor|]. apply Forall_forall. exact lit_nonneg. Qed.

(** C16 *)
Theorem C16_weights_roundtrip : forall nPol nChan q block,
  regular nPol nChan block -> Forall (Forall nonneg) block -> (2 <= q <= 65536)%Z ->
  exists m ss, EncodeWeights nPol nChan q block = Ok (m, ss) /\
  length ss = (length block * nChan)%nat /\ Forall (fun s => (Z.of_N s < q)%Z) ss /\
  is_finite m = true /\ 0 < B2R m /\
  (forall r rw, nth_error block r = Some rw -> exists out, DecodeWeights nPol nChan q m ss r = Ok out /\
    length out = (nChan * nPol)%nat /\
    forall ch, (ch < nChan)%nat -> exists w v, smallest w (pols nPol rw ch) /\
      (forall p, (p < nPol)%nat -> nth_error out (ch * nPol + p) = Some v) /\
      nonneg v /\
      Rabs (B2R v - B2R w) <= B2R m / (2 * IZR (q - 1)) + bpow radix2 (-21) * B2R m + bpow radix2 (-149) /\
      B2R w <= B2R m /\ (B2R w = 0 -> B2R v = 0) /\ (B2R w = B2R m -> B2R v = B2R m)) /\
  ((exists r rw ch, nth_error block r = Some rw /\ (ch < nChan)%nat /\ smallest m (pols nPol rw ch)) \/
   (B2R m = 1 /\ forall r rw ch w, nth_error block r = Some rw -> (ch < nChan)%nat -> smallest w (pols nPol rw ch) -> B2R w = 0)).
Proof. exact weights_roundtrip. Qed.
Print Assumptions C16_weights_roundtrip.

Theorem C16_weights_order : forall nPol nChan q block m ss,
  regular nPol nChan block -> Forall (Forall nonneg) block -> (2 <= q <= 65536)%Z ->
  EncodeWeights nPol nChan q block = Ok (m, ss) ->
  forall r rw ch w r' rw' ch' w' out out' v v',
  nth_error block r = Some rw -> (ch < nChan)%nat -> smallest w (pols nPol rw ch) ->
  nth_error block r' = Some rw' -> (ch' < nChan)%nat -> smallest w' (pols nPol rw' ch') ->
  B2R w <= B2R w' ->
  DecodeWeights nPol nChan q m ss r = Ok out -> nth_error out (ch * nPol) = Some v ->
  DecodeWeights nPol nChan q m ss r' = Ok out' -> nth_error out' (ch' * nPol) = Some v' ->
  B2R v <= B2R v'.
Proof. intros nPol nChan q block m ss R N Q. exact (weights_order nPol nChan q block R N Q m ss). Qed.
Print Assumptions C16_weights_order.

(** the same for the stand-alone WeightEncoder<float>, whose scale factors are floats *)
Theorem C16_weight_encoder_roundtrip : forall q (input : list f32), (2 <= q <= 65536)%Z -> Forall nonneg input ->
  (exists w, In w input /\ bpow radix2 (-100) <= B2R w) -> (forall w, In w input -> B2R w <= bpow radix2 100) ->
  exists m ss, WeightEncode q input = Ok (m, ss) /\ In m input /\ (forall w, In w input -> B2R w <= B2R m) /\
    Forall (fun s => (Z.of_N s < q)%Z) ss /\
    Forall2 (fun w v => is_finite v = true /\ Rabs (B2R v - B2R w) <= B2R m / (2 * IZR (q - 1)) + bpow radix2 (-20) * B2R m)
      input (WeightDecode q m ss).
Proof. exact we_roundtrip. Qed.
Print Assumptions C16_weight_encoder_roundtrip.

(** weights 0.5, 0, 2, 1.25 with 5 levels: the largest gets the last symbol *)
Example C16_example : regular 2 2 ex_block /\ Forall (Forall nonneg) ex_block /\
  match EncodeWeights 2 2 5 ex_block with Ok (m, ss) => (B2SF m, ss) = (B2SF (lit32 2 0), [1; 0; 4; 3]%N) | _ => False end /\
  match EncodeWeights 2 2 5 ex_block with
  | Ok (m, ss) => match DecodeWeights 2 2 5 m ss 1 with
                  | Ok out => map B2SF out = map B2SF [lit32 2 0; lit32 2 0; lit32 3 (-1); lit32 3 (-1)] | _ => False end
  | _ => False end.
Proof.
  split; [exact (proj1 ex_block_ok)|]. split; [exact (proj2 ex_block_ok)|]. split; vm_compute; reflexivity.
Qed.

(** C17: the property fails.  One polarization: every NaN or infinite weight. *)
Theorem C17_nonfinite_undefined : forall nChan q block r w, regular 1 nChan block -> In r block -> In w r ->
  is_finite w = false -> EncodeWeights 1 nChan q block = UB.
Proof. exact one_pol_nonfinite. Qed.
Print Assumptions C17_nonfinite_undefined.

(** any number of polarizations: a NaN in the first polarization of a channel *)
Theorem C17_nan_undefined : forall nPol nChan q block r ch x, regular nPol nChan block ->
  nth_error block r = Some x -> (ch < nChan)%nat -> (exists w, nth_error x (ch * nPol) = Some w /\ is_nan w = true) ->
  EncodeWeights nPol nChan q block = UB.
Proof. exact first_pol_nan_ub. Qed.
Print Assumptions C17_nan_undefined.

(** a negative weight of at least one quantization step; [M] bounds the weights *)
Theorem C17_negative_undefined : forall nChan q block M r w, (2 <= q <= 65536)%Z -> regular 1 nChan block ->
  Forall (Forall (fun x => is_finite x = true /\ B2R x <= M)) block ->
  (1 <= M \/ exists r' w', In r' block /\ In w' r' /\ 0 < B2R w') ->
  In r block -> In w r -> B2R w * IZR (q - 1) <= - M ->
  EncodeWeights 1 nChan q block = UB.
Proof. exact one_pol_negative. Qed.
Print Assumptions C17_negative_undefined.

(** a row of the block that was never filled *)
Theorem C17_missing_row_undefined : forall nPol nChan q block, (1 <= nChan)%nat -> In [] block ->
  EncodeWeights nPol nChan q block = UB.
Proof. exact encode_missing_row_ub. Qed.
Print Assumptions C17_missing_row_undefined.

(** WeightEncoder<float>: all weights zero *)
Theorem C17_weight_encoder_zero_undefined : forall q (input : list f32), (2 <= q <= 65536)%Z -> input <> [] ->
  (forall w, In w input -> is_finite w = true /\ B2R w = 0) -> WeightEncode q input = UB.
Proof. exact we_all_zero. Qed.
Print Assumptions C17_weight_encoder_zero_undefined.

(** and where it does hold: finite non-negative weights *)
Theorem C17_defined : forall nPol nChan q block,
  regular nPol nChan block -> Forall (Forall nonneg) block -> (2 <= q <= 65536)%Z ->
  exists m ss, EncodeWeights nPol nChan q block = Ok (m, ss).
Proof. intros nPol nChan q block R N Q. destruct (weights_roundtrip nPol nChan q block R N Q) as (m & ss & E & _). exact (ex_intro _ m (ex_intro _ ss E)). Qed.
Print Assumptions C17_defined.

Theorem C17_weights_refuted : exists nPol nChan q block, regular nPol nChan block /\
  Forall (Forall (fun x => is_finite x = true)) block /\ EncodeWeights nPol nChan q block = UB.
Proof.
  exists 1%nat, 2%nat, 4096%Z, [[lit32 1 0; lit32 (-1) 0]]. split; [repeat constructor|].
  split; [repeat constructor|vm_compute; reflexivity].
Qed.
Print Assumptions C17_weights_refuted.

Example C17_example :
  EncodeWeights 1 2 4096 [[lit32 1 0; nan32]] = UB /\ EncodeWeights 1 2 4096 [[lit32 1 0; lit32 (-1) (-3)]] = UB /\
  EncodeWeights 2 1 4096 [[lit32 1 0; lit32 1 0]; []] = UB /\ WeightEncode 16 [lit32 0 0; lit32 0 0] = UB /\
  match EncodeWeights 1 2 4096 [[lit32 1 0; lit32 (-1) (-20)]] with Ok (_, ss) => ss = [4095; 0]%N | _ => False end.
Proof. repeat split; vm_compute; reflexivity. Qed.

(** C48 *)
Theorem C48_weights_idempotent : forall nPol nChan q block m ss block', regular nPol nChan block -> Forall (Forall nonneg) block ->
  (2 <= q <= 65536)%Z -> EncodeWeights nPol nChan q block = Ok (m, ss) -> bpow radix2 (-126) <= B2R m ->
  mapM (DecodeWeights nPol nChan q m ss) (seq 0 (length block)) = Ok block' ->
  EncodeWeights nPol nChan q block' = Ok (m, ss).
Proof. exact weights_again. Qed.
Print Assumptions C48_weights_idempotent.

Example C48_example : regular 2 2 ex_block /\ Forall (Forall nonneg) ex_block /\
  match EncodeWeights 2 2 5 ex_block with
  | Ok (m, ss) => match mapM (DecodeWeights 2 2 5 m ss) (seq 0 2) with
    | Ok b => match EncodeWeights 2 2 5 b with Ok (m', ss') => (B2SF m', ss') = (B2SF m, ss) | _ => False end
    | _ => False end
  | _ => False end.
Proof. split; [exact (proj1 ex_block_ok)|]. split; [exact (proj2 ex_block_ok)|]. vm_compute; reflexivity. Qed.

(** With a subnormal largest weight the decoded weights are themselves rounded to
    multiples of 2^-149 and symbols change. *)
Theorem C48_subnormal_refuted : exists q block, regular 1 2 block /\ Forall (Forall (fun x => is_finite x = true)) block /\
  match EncodeWeights 1 2 q block with
  | Ok (m, ss) => match mapM (DecodeWeights 1 2 q m ss) (seq 0 1) with
    | Ok b => match EncodeWeights 1 2 q b with Ok (_, ss') => ss' <> ss | _ => False end
    | _ => False end
  | _ => False end.
Proof.
  exists 65536%Z, [[lit32 1 (-133); lit32 1 (-134)]]. split; [repeat constructor|]. split; [repeat constructor|].
  vm_compute. discriminate.
Qed.
Print Assumptions C48_subnormal_refuted.
