(** Lemmas about the weight encoders. *)
From Coq Require Import Reals Lra Psatz.
From Flocq Require Import Core.
From Verif Require Import Base Floats FloatLemmas Weights.
Local Open Scope R_scope.

Notation rn32 := (@rne 24 128).
Notation rn64 := (@rne 53 1024).

(** ** Rounding lemmas *)

Lemma rel64 x : bpow radix2 (-900) <= Rabs x \/ x = 0 -> Rabs (rn64 x - x) <= bpow radix2 (-52) * Rabs x.
Proof.
  intros [H| ->].
  - eapply Rle_trans; [apply rne_err|].
    replace (bpow radix2 (-52)) with (bpow radix2 (-53) + bpow radix2 (-53)).
    2: { change (bpow radix2 (-52)) with (bpow radix2 (1 + -53)). rewrite bpow_plus. change (bpow radix2 1) with 2. ring. }
    rewrite Rmult_plus_distr_r. apply Rplus_le_compat_l.
    apply Rle_trans with (bpow radix2 (-53) * bpow radix2 (-900)).
    + rewrite <- bpow_plus. apply bpow_le. lia.
    + apply Rmult_le_compat_l; [apply bpow_ge_0|exact H].
  - rewrite rne_0, Rminus_0_r, Rabs_R0. lra.
Qed.

(** a float32 value is recovered from any close approximation *)
Lemma rn32_near (x : f32) y : 0 < B2R x -> Rabs (y - B2R x) <= bpow radix2 (-40) * B2R x -> rn32 y = B2R x.
Proof.
  intros Hx Hy.
  assert (F : generic_format radix2 (FLT_exp (3 - 128 - 24) 24) (B2R x)) by apply generic_format_B2R.
  set (fx := FLT_exp (3 - 128 - 24) 24) in *.
  assert (Vx : Valid_exp fx) by (unfold fx; apply FLT_exp_valid; reflexivity).
  assert (Ge : bpow radix2 (-40) * B2R x <= bpow radix2 (-27) * B2R x).
  { apply Rmult_le_compat_r; [lra|]. apply bpow_le. lia. }
  apply Rabs_le_inv in Hy.
  change (rn32 y) with (round radix2 fx ZnearestE y).
  change (bpow radix2 (-27)) with (/ 134217728) in Ge.
  apply Rle_antisym.
  - apply round_N_le_midp; trivial.
    pose proof (ulp_FLT_gt radix2 (3 - 128 - 24) 24 (B2R x)) as U. fold fx in U.
    rewrite Rabs_pos_eq in U by lra. rewrite succ_eq_pos by lra.
    change (bpow radix2 (- (24))) with (/ 16777216) in U. lra.
  - apply round_N_ge_midp; trivial.
    pose proof (pred_plus_ulp radix2 fx (B2R x) Hx F) as P.
    pose proof (ulp_FLT_gt radix2 (3 - 128 - 24) 24 (pred radix2 fx (B2R x))) as U. fold fx in U.
    assert (P0 : 0 <= pred radix2 fx (B2R x)) by (apply pred_ge_0; trivial).
    rewrite Rabs_pos_eq in U by lra. change (bpow radix2 (- (24))) with (/ 16777216) in U. lra.
Qed.

Lemma pos_lower (x : f32) : 0 < B2R x -> bpow radix2 (-149) <= B2R x.
Proof.
  intros H. assert (F : generic_format radix2 (FLT_exp (-149) 24) (B2R x)) by apply generic_format_B2R.
  destruct (generic_format_ge_bpow radix2 (FLT_exp (-149) 24) (-149)) with (x := B2R x) as []; trivial; try lra.
  intros e. unfold FLT_exp. lia.
Qed.

(** [roundf] followed by the conversion *)
Definition away (r : R) : Z := Znearest (Zle_bool 0) r.

Lemma roundf_trunc (x : f32) : is_finite x = true -> is_finite (roundf x) = true /\ Btrunc (roundf x) = away (B2R x).
Proof.
  intros F. destruct (Bnearbyint_correct 24 128 _ mode_NA x) as (E & Fi & _).
  split; [unfold roundf; now rewrite Fi|]. apply eq_IZR.
  rewrite (Btrunc_correct 24 128 _). unfold roundf. rewrite E.
  cbn [round_mode]. unfold away.
  assert (RF : forall rnd r, round radix2 (FIX_exp 0) rnd r = IZR (rnd r)).
  { intros rnd r. unfold round, F2R, scaled_mantissa, cexp, FIX_exp. cbn. now rewrite !Rmult_1_r. }
  rewrite !RF. now rewrite Ztrunc_IZR.
Qed.

Lemma away_mono r r' : r <= r' -> (away r <= away r')%Z.
Proof. intros H. unfold away. apply (Zrnd_le (Znearest (Zle_bool 0))). exact H. Qed.

Lemma away_IZR z : away (IZR z) = z.
Proof. unfold away. apply (Zrnd_IZR (Znearest (Zle_bool 0))). Qed.

Lemma away_half r : Rabs (IZR (away r) - r) <= / 2.
Proof. rewrite Rabs_minus_sym. apply Znearest_half. Qed.

Section OneWeight.
Variable m : f32.
Hypothesis Fm : is_finite m = true.
Hypothesis Pm : 0 < B2R m.
Variable q : Z.
Hypothesis Hq : (2 <= q <= 65536)%Z.
Let N := (q - 1)%Z.

Let HN : 1 <= IZR N <= 65535.
Proof. unfold N. split; apply IZR_le; lia. Qed.

Lemma m_range : bpow radix2 (-149) <= B2R m <= bpow radix2 128.
Proof. split; [now apply pos_lower|]. pose proof (B2R_bounds m). lra. Qed.

Lemma m64 : is_finite (to64 m) = true /\ B2R (to64 m) = B2R m.
Proof. apply (conv_widen (p':=53) (e':=1024) m); trivial; lia. Qed.

Lemma N64 : is_finite (of64 N) = true /\ B2R (of64 N) = IZR N.
Proof. apply ofZ_exact. unfold N. lia. Qed.

Lemma inv_m : bpow radix2 (-128) <= / B2R m <= bpow radix2 149.
Proof.
  pose proof m_range as (L & U). split.
  - change (-128)%Z with (- (128))%Z. rewrite bpow_opp. apply Rinv_le; trivial.
  - replace (bpow radix2 149) with (/ bpow radix2 (-149)) by (rewrite <- bpow_opp; reflexivity).
    apply Rinv_le; trivial. apply bpow_gt_0.
Qed.

Lemma small52 : 0 < bpow radix2 (-52) <= / 1000000000000.
Proof. split; [apply bpow_gt_0|]. change (bpow radix2 (-52)) with (/ 4503599627370496). lra. Qed.

(** the scale used when encoding *)
Lemma enc_scale_ok : is_finite (enc_scale q m) = true /\
  Rabs (B2R (enc_scale q m) - IZR N / B2R m) <= bpow radix2 (-52) * (IZR N / B2R m).
Proof.
  destruct m64 as (F1 & E1), N64 as (F2 & E2). pose proof inv_m as (I1 & I2).
  assert (D : op_ok (enc_scale q m) (IZR N / B2R m)).
  { unfold enc_scale. fold N. rewrite <- E1, <- E2. apply div_ok; trivial. rewrite E1. lra. }
  assert (Q : bpow radix2 (-128) <= IZR N / B2R m <= bpow radix2 165).
  { unfold Rdiv. split.
    - rewrite <- (Rmult_1_l (bpow radix2 (-128))). apply Rmult_le_compat; try lra. apply bpow_ge_0.
    - apply Rle_trans with (bpow radix2 16 * bpow radix2 149).
      + apply Rmult_le_compat; try lra. pose proof (bpow_ge_0 radix2 (-128)); lra. change (bpow radix2 16) with 65536. lra.
      + rewrite <- bpow_plus. apply bpow_le. lia. }
  assert (Q0 : 0 <= IZR N / B2R m) by (pose proof (bpow_ge_0 radix2 (-128)); lra).
  destruct (op_ok_bounded _ _ 165 D) as (F & E & _); [rewrite Rabs_pos_eq; lra|lia|].
  split; trivial. rewrite E.
  pose proof (rel64 (IZR N / B2R m)) as R. rewrite (Rabs_pos_eq (IZR N / B2R m)) in R by trivial. apply R.
  left. apply Rle_trans with (bpow radix2 (-128)); [apply bpow_le; lia|lra].
Qed.

Section W.
Variable w : f32.
Hypothesis Fw : is_finite w = true.

Lemma w64 : is_finite (to64 w) = true /\ B2R (to64 w) = B2R w.
Proof. apply (conv_widen (p':=53) (e':=1024) w); trivial; lia. Qed.

Hypothesis Hw : 0 <= B2R w <= B2R m.
Let t := B2R w * IZR N / B2R m.

Lemma t_range : 0 <= t <= IZR N.
Proof.
  unfold t. split.
  - unfold Rdiv. apply Rmult_le_pos; [apply Rmult_le_pos; lra|]. apply Rlt_le, Rinv_0_lt_compat; lra.
  - apply Rmult_le_reg_r with (B2R m); trivial. unfold Rdiv. rewrite Rmult_assoc, Rinv_l, Rmult_1_r by lra.
    rewrite Rmult_comm. apply Rmult_le_compat_l; lra.
Qed.

Lemma prod_ok : let p := mul64 (to64 w) (enc_scale q m) in
  is_finite p = true /\ Rabs (B2R p - t) <= bpow radix2 (-50) * t /\ B2R p = rn64 (B2R w * B2R (enc_scale q m)).
Proof.
  intros p. destruct w64 as (F1 & E1), enc_scale_ok as (F2 & E2). pose proof t_range as T.
  set (s := B2R (enc_scale q m)) in *. pose proof small52 as S52. pose proof inv_m as I.
  assert (M : op_ok p (B2R w * s)) by (rewrite <- E1; now apply mult_ok).
  assert (Q : 0 < IZR N / B2R m) by (apply Rdiv_lt_0_compat; lra).
  apply Rabs_le_inv in E2.
  assert (Es : Rabs (B2R w * s - t) <= bpow radix2 (-52) * t).
  { replace (B2R w * s - t) with (B2R w * (s - IZR N / B2R m)) by (unfold t; field; lra).
    replace (bpow radix2 (-52) * t) with (B2R w * (bpow radix2 (-52) * (IZR N / B2R m))) by (unfold t; field; lra).
    rewrite Rabs_mult, Rabs_pos_eq by lra. apply Rmult_le_compat_l; [lra|]. apply Rabs_le. lra. }
  assert (W0 : 0 <= B2R w * s) by (apply Rmult_le_pos; [lra|nra]).
  apply Rabs_le_inv in Es.
  assert (WU : B2R w * s <= bpow radix2 17) by (change (bpow radix2 17) with 131072; nra).
  destruct (op_ok_bounded p _ 17 M) as (F & E & _); [rewrite Rabs_pos_eq; lra|lia|].
  split; trivial. split; trivial. rewrite E.
  assert (R : Rabs (rn64 (B2R w * s) - B2R w * s) <= bpow radix2 (-52) * (B2R w * s)).
  { rewrite <- (Rabs_pos_eq (B2R w * s)) at 3 by trivial. apply rel64.
    destruct (Req_dec (B2R w) 0) as [Z|Z]; [right; rewrite Z; ring|left].
    rewrite Rabs_pos_eq by trivial.
    assert (L : bpow radix2 (-149) <= B2R w) by (apply pos_lower; lra).
    apply Rle_trans with (bpow radix2 (-149) * bpow radix2 (-129)); [rewrite <- bpow_plus; apply bpow_le; lia|].
    apply Rmult_le_compat; try apply bpow_ge_0; trivial.
    apply Rle_trans with (bpow radix2 (-128) * / 2).
    - change (-129)%Z with (-128 + -1)%Z. rewrite bpow_plus. apply Rle_refl.
    - pose proof (bpow_gt_0 radix2 (-128)). assert (bpow radix2 (-128) <= IZR N / B2R m).
      { unfold Rdiv. rewrite <- (Rmult_1_l (bpow radix2 (-128))). apply Rmult_le_compat; lra. }
      nra. }
  apply Rabs_le_inv in R. replace (bpow radix2 (-50)) with (4 * bpow radix2 (-52)).
  2: { change (-50)%Z with (2 + -52)%Z. rewrite bpow_plus. reflexivity. }
  apply Rabs_le. nra.
Qed.

Lemma quant_arg : let x := to32 (mul64 (to64 w) (enc_scale q m)) in
  is_finite x = true /\ Rabs (B2R x - t) <= bpow radix2 (-23) * t + bpow radix2 (-150) /\ 0 <= B2R x /\
  B2R x = rn32 (B2R (mul64 (to64 w) (enc_scale q m))).
Proof.
  intros x. destruct prod_ok as (F & E & _). set (p := mul64 (to64 w) (enc_scale q m)) in *.
  pose proof t_range as T. assert (X : op_ok x (B2R p)) by now apply (conv_ok (p':=24) (e':=128)).
  change (bpow radix2 (-50)) with (/ 1125899906842624) in E. apply Rabs_le_inv in E.
  assert (P : 0 <= B2R p <= 131072) by lra.
  destruct (op_ok_bounded x _ 17 X) as (Fx & Ex & _); [rewrite Rabs_pos_eq by lra; change (bpow radix2 17) with 131072; lra|lia|].
  split; trivial. split; [|split; trivial].
  - rewrite Ex. pose proof (rne_err (p:=24) (e:=128) (B2R p)) as R.
    rewrite (Rabs_pos_eq (B2R p)) in R by lra. change (2 - 128 - 24)%Z with (-150)%Z in R.
    change (bpow radix2 (- (24))) with (/ 16777216) in R. change (bpow radix2 (-23)) with (/ 8388608).
    apply Rabs_le_inv in R. apply Rabs_le. lra.
  - rewrite Ex. apply rne_ge0. lra.
Qed.
End W.

Lemma quant_max (w : f32) : is_finite w = true -> B2R w = B2R m ->
  B2R (to32 (mul64 (to64 w) (enc_scale q m))) = IZR N.
Proof.
  intros Fw Ew. destruct (quant_arg w Fw ltac:(lra)) as (_ & _ & _ & ->).
  destruct (prod_ok w Fw ltac:(lra)) as (F & E & _).
  assert (T : B2R w * IZR N / B2R m = IZR N) by (rewrite Ew; field; lra). rewrite T in E.
  destruct (ofZ_exact (p:=24) (e:=128) N) as (Fn & En); [unfold N; lia|].
  rewrite <- En in *. apply rn32_near; [lra|]. eapply Rle_trans; [exact E|].
  apply Rmult_le_compat_r; [lra|]. apply bpow_le; lia.
Qed.

Lemma quant_mono (w w' : f32) : is_finite w = true -> is_finite w' = true -> 0 <= B2R w -> B2R w <= B2R w' -> B2R w' <= B2R m ->
  B2R (to32 (mul64 (to64 w) (enc_scale q m))) <= B2R (to32 (mul64 (to64 w') (enc_scale q m))).
Proof.
  intros Fw Fw' H0 H1 H2.
  destruct (quant_arg w Fw ltac:(lra)) as (_ & _ & _ & ->). destruct (quant_arg w' Fw' ltac:(lra)) as (_ & _ & _ & ->).
  apply rne_le.
  destruct (prod_ok w Fw ltac:(lra)) as (_ & _ & ->). destruct (prod_ok w' Fw' ltac:(lra)) as (_ & _ & ->).
  apply rne_le. apply Rmult_le_compat_r; [|lra].
  destruct enc_scale_ok as (F2 & E2). apply Rabs_le_inv in E2. pose proof small52.
  assert (0 < IZR N / B2R m) by (apply Rdiv_lt_0_compat; lra). nra.
Qed.

(** the symbol of a weight *)
Definition qsym (w : f32) : Z := away (B2R (to32 (mul64 (to64 w) (enc_scale q m)))).

Lemma quantize_ok (w : f32) : is_finite w = true -> 0 <= B2R w <= B2R m ->
  quantize q m w = Ok (Z.to_N (qsym w)) /\ (0 <= qsym w <= N)%Z.
Proof.
  intros Fw Hw. destruct (quant_arg w Fw Hw) as (Fx & _ & X0 & _).
  assert (R : (0 <= qsym w <= N)%Z).
  { split.
    - apply Z.le_trans with (away 0); [unfold away; rewrite (Zrnd_IZR (Znearest (Zle_bool 0)) 0); lia|].
      now apply away_mono.
    - rewrite <- (away_IZR N). rewrite <- (quant_max m Fm eq_refl). apply away_mono.
      apply quant_mono; trivial; lra. }
  split; trivial. unfold quantize, to_unsigned.
  destruct (roundf_trunc _ Fx) as (Fr & Er). rewrite Fr, Er. fold (qsym w).
  replace (_ && _)%bool with true; trivial. symmetry. apply andb_true_iff.
  split; [apply Z.leb_le|apply Z.ltb_lt]; unfold N in R; lia.
Qed.

Lemma qsym_mono (w w' : f32) : is_finite w = true -> is_finite w' = true -> 0 <= B2R w -> B2R w <= B2R w' -> B2R w' <= B2R m ->
  (qsym w <= qsym w')%Z.
Proof. intros. apply away_mono. now apply quant_mono. Qed.

Lemma qsym_max (w : f32) : is_finite w = true -> B2R w = B2R m -> qsym w = N.
Proof. intros Fw Ew. unfold qsym. rewrite quant_max by trivial. apply away_IZR. Qed.

Lemma qsym_zero (w : f32) : is_finite w = true -> B2R w = 0 -> qsym w = 0%Z.
Proof.
  intros Fw Ew. unfold qsym. destruct (quant_arg w Fw ltac:(lra)) as (_ & _ & _ & ->).
  destruct (prod_ok w Fw ltac:(lra)) as (_ & E & _). rewrite Ew in E. unfold Rdiv in E. rewrite !Rmult_0_l, Rmult_0_r, Rminus_0_r in E.
  apply Rabs_le_inv in E. replace (B2R _) with 0 by lra. rewrite rne_0. apply (away_IZR 0).
Qed.

(** decoding *)
Lemma dec_scale_ok : is_finite (dec_scale q m) = true /\
  Rabs (B2R (dec_scale q m) - B2R m / IZR N) <= bpow radix2 (-52) * (B2R m / IZR N).
Proof.
  destruct m64 as (F1 & E1), N64 as (F2 & E2). pose proof m_range as (L & U).
  assert (D : op_ok (dec_scale q m) (B2R m / IZR N)).
  { unfold dec_scale. fold N. rewrite <- E1, <- E2. apply div_ok; trivial. rewrite E2. lra. }
  assert (I : / 65535 <= / IZR N <= 1).
  { split; [apply Rinv_le; lra|]. rewrite <- Rinv_1. apply Rinv_le; lra. }
  assert (Q : bpow radix2 (-165) <= B2R m / IZR N <= bpow radix2 128).
  { unfold Rdiv. split.
    - apply Rle_trans with (bpow radix2 (-149) * bpow radix2 (-16)); [rewrite <- bpow_plus; apply bpow_le; lia|].
      apply Rmult_le_compat; trivial; try apply bpow_ge_0. change (bpow radix2 (-16)) with (/ 65536). lra.
    - rewrite <- (Rmult_1_r (bpow radix2 128)). apply Rmult_le_compat; lra. }
  assert (Q0 : 0 <= B2R m / IZR N) by (pose proof (bpow_ge_0 radix2 (-165)); lra).
  destruct (op_ok_bounded _ _ 128 D) as (F & E & _); [rewrite Rabs_pos_eq; lra|lia|].
  split; trivial. rewrite E.
  pose proof (rel64 (B2R m / IZR N)) as R. rewrite (Rabs_pos_eq (B2R m / IZR N)) in R by trivial. apply R.
  left. apply Rle_trans with (bpow radix2 (-165)); [apply bpow_le; lia|lra].
Qed.

Section S.
Variable s : Z.
Hypothesis Hs : (0 <= s <= N)%Z.
Let u := IZR s * B2R m / IZR N.

Lemma u_range : 0 <= u <= B2R m.
Proof.
  assert (S0 : 0 <= IZR s <= IZR N) by (split; apply IZR_le; lia). unfold u. split.
  - unfold Rdiv. apply Rmult_le_pos; [apply Rmult_le_pos; lra|]. apply Rlt_le, Rinv_0_lt_compat; lra.
  - apply Rmult_le_reg_r with (IZR N); [lra|]. unfold Rdiv. rewrite Rmult_assoc, Rinv_l, Rmult_1_r by lra.
    rewrite Rmult_comm. apply Rmult_le_compat_l; lra.
Qed.

Lemma dprod_ok : let p := mul64 (of64 s) (dec_scale q m) in
  is_finite p = true /\ Rabs (B2R p - u) <= bpow radix2 (-50) * u /\ B2R p = rn64 (IZR s * B2R (dec_scale q m)).
Proof.
  intros p. destruct (ofZ_exact (p:=53) (e:=1024) s) as (F1 & E1); [unfold N in Hs; lia|].
  destruct dec_scale_ok as (F2 & E2). pose proof u_range as T. pose proof m_range as (ML & MU).
  assert (S0 : 0 <= IZR s <= IZR N) by (split; apply IZR_le; lia).
  set (d := B2R (dec_scale q m)) in *. pose proof small52 as S52.
  assert (M : op_ok p (IZR s * d)) by (rewrite <- E1; now apply mult_ok).
  assert (Q : 0 < B2R m / IZR N) by (apply Rdiv_lt_0_compat; lra).
  apply Rabs_le_inv in E2.
  assert (Es : Rabs (IZR s * d - u) <= bpow radix2 (-52) * u).
  { replace (IZR s * d - u) with (IZR s * (d - B2R m / IZR N)) by (unfold u; field; lra).
    replace (bpow radix2 (-52) * u) with (IZR s * (bpow radix2 (-52) * (B2R m / IZR N))) by (unfold u; field; lra).
    rewrite Rabs_mult, Rabs_pos_eq by lra. apply Rmult_le_compat_l; [lra|]. apply Rabs_le. lra. }
  assert (W0 : 0 <= IZR s * d) by (apply Rmult_le_pos; [lra|nra]).
  apply Rabs_le_inv in Es.
  assert (WU : IZR s * d <= bpow radix2 129).
  { change 129%Z with (1 + 128)%Z. rewrite bpow_plus. change (bpow radix2 1) with 2. nra. }
  destruct (op_ok_bounded p _ 129 M) as (F & E & _); [rewrite Rabs_pos_eq; lra|lia|].
  split; trivial. split; trivial. rewrite E.
  assert (R : Rabs (rn64 (IZR s * d) - IZR s * d) <= bpow radix2 (-52) * (IZR s * d)).
  { rewrite <- (Rabs_pos_eq (IZR s * d)) at 3 by trivial. apply rel64.
    destruct (Z.eq_dec s 0) as [Z|Z]; [right; rewrite Z; ring|left].
    rewrite Rabs_pos_eq by trivial.
    assert (S1 : 1 <= IZR s) by (apply IZR_le; lia).
    apply Rle_trans with (bpow radix2 (-166)); [apply bpow_le; lia|].
    apply Rle_trans with (1 * d); [|apply Rmult_le_compat_r; nra].
    assert (bpow radix2 (-165) <= B2R m / IZR N).
    { unfold Rdiv. apply Rle_trans with (bpow radix2 (-149) * bpow radix2 (-16)); [rewrite <- bpow_plus; apply bpow_le; lia|].
      apply Rmult_le_compat; trivial; try apply bpow_ge_0. change (bpow radix2 (-16)) with (/ 65536).
      apply Rinv_le; lra. }
    change (-166)%Z with (-165 + -1)%Z. rewrite bpow_plus. change (bpow radix2 (-1)) with (/ 2).
    pose proof (bpow_gt_0 radix2 (-165)). nra. }
  apply Rabs_le_inv in R. replace (bpow radix2 (-50)) with (4 * bpow radix2 (-52)).
  2: { change (-50)%Z with (2 + -52)%Z. rewrite bpow_plus. reflexivity. }
  apply Rabs_le. nra.
Qed.

Lemma rne_pos_mono_m y : 0 <= y -> y <= B2R m * (1 + bpow radix2 (-40)) -> 0 <= rn32 y <= B2R m.
Proof.
  intros Y0 Y1. split; [now apply rne_ge0|].
  assert (E : rn32 (B2R m * (1 + bpow radix2 (-40))) = B2R m).
  { apply rn32_near; trivial. replace (B2R m * (1 + bpow radix2 (-40)) - B2R m) with (bpow radix2 (-40) * B2R m) by ring.
    rewrite Rabs_pos_eq; [lra|]. apply Rmult_le_pos; [apply bpow_ge_0|lra]. }
  rewrite <- E. now apply rne_le.
Qed.

Lemma dequant_val : let v := dequantize q m (Z.to_N s) in
  is_finite v = true /\ B2R v = rn32 (B2R (mul64 (of64 s) (dec_scale q m))) /\ 0 <= B2R v <= B2R m /\
  Rabs (B2R v - u) <= bpow radix2 (-23) * u + bpow radix2 (-150).
Proof.
  intros v. destruct dprod_ok as (F & E & _). pose proof u_range as T.
  unfold v, dequantize. rewrite Z2N.id by lia. set (p := mul64 (of64 s) (dec_scale q m)) in *.
  assert (X : op_ok (to32 p) (B2R p)) by now apply (conv_ok (p':=24) (e':=128)).
  apply Rabs_le_inv in E.
  assert (Le : bpow radix2 (-50) * u <= bpow radix2 (-40) * B2R m).
  { apply Rmult_le_compat; try apply bpow_ge_0; try lra. apply bpow_le; lia. }
  assert (Pp : 0 <= B2R p).
  { change (bpow radix2 (-50)) with (/ 1125899906842624) in E. lra. }
  pose proof (rne_pos_mono_m (B2R p) Pp ltac:(lra)) as Rg.
  destruct (op_ok_finite _ _ X) as (Fx & Ex).
  { rewrite Rabs_pos_eq by lra. pose proof (B2R_bounds m). lra. }
  split; trivial. split; trivial. split; [now rewrite Ex|].
  rewrite Ex. pose proof (rne_err (p:=24) (e:=128) (B2R p)) as R.
  rewrite (Rabs_pos_eq (B2R p)) in R by lra. change (2 - 128 - 24)%Z with (-150)%Z in R.
  change (bpow radix2 (- (24))) with (/ 16777216) in R. change (bpow radix2 (-23)) with (/ 8388608).
  change (bpow radix2 (-50)) with (/ 1125899906842624) in E.
  apply Rabs_le_inv in R. apply Rabs_le. lra.
Qed.
End S.

Lemma dequant_max : B2R (dequantize q m (Z.to_N N)) = B2R m.
Proof.
  destruct (dequant_val N ltac:(unfold N; lia)) as (_ & -> & _).
  destruct (dprod_ok N ltac:(unfold N; lia)) as (_ & E & _).
  replace (IZR N * B2R m / IZR N) with (B2R m) in E by (field; lra).
  apply rn32_near; trivial. eapply Rle_trans; [exact E|]. apply Rmult_le_compat_r; [lra|]. apply bpow_le; lia.
Qed.

Lemma dequant_zero : B2R (dequantize q m 0) = 0.
Proof.
  destruct (dequant_val 0 ltac:(unfold N; lia)) as (_ & E & _). cbn [Z.to_N] in E. rewrite E.
  destruct (dprod_ok 0 ltac:(unfold N; lia)) as (_ & _ & ->). rewrite Rmult_0_l, rne_0. apply rne_0.
Qed.

Lemma dequant_mono s s' : (0 <= s <= s')%Z -> (s' <= N)%Z ->
  B2R (dequantize q m (Z.to_N s)) <= B2R (dequantize q m (Z.to_N s')).
Proof.
  intros H H'. destruct (dequant_val s ltac:(lia)) as (_ & -> & _). destruct (dequant_val s' ltac:(lia)) as (_ & -> & _).
  destruct (dprod_ok s ltac:(lia)) as (_ & _ & ->). destruct (dprod_ok s' ltac:(lia)) as (_ & _ & ->).
  apply rne_le, rne_le. apply Rmult_le_compat_r; [|apply IZR_le; lia].
  destruct dec_scale_ok as (F2 & E2). apply Rabs_le_inv in E2. pose proof small52.
  assert (0 < B2R m / IZR N) by (apply Rdiv_lt_0_compat; lra). nra.
Qed.

(** the error of a weight *)
Lemma weight_error (w : f32) : is_finite w = true -> 0 <= B2R w <= B2R m ->
  Rabs (B2R (dequantize q m (Z.to_N (qsym w))) - B2R w)
    <= B2R m / (2 * IZR N) + bpow radix2 (-21) * B2R m + bpow radix2 (-149).
Proof.
  intros Fw Hw. destruct (quantize_ok w Fw Hw) as (_ & Hs).
  destruct (dequant_val (qsym w) Hs) as (_ & _ & _ & Ev).
  destruct (quant_arg w Fw Hw) as (_ & Ex & _ & _).
  pose proof (away_half (B2R (to32 (mul64 (to64 w) (enc_scale q m))))) as Ha. fold (qsym w) in Ha.
  pose proof (t_range w Hw) as T. pose proof (u_range (qsym w) Hs) as U.
  set (t := B2R w * IZR N / B2R m) in *. set (u := IZR (qsym w) * B2R m / IZR N) in *.
  set (e150 := bpow radix2 (-150)) in *. assert (E0 : 0 < e150) by apply bpow_gt_0.
  replace (bpow radix2 (-149)) with (2 * e150).
  2: { unfold e150. change (-149)%Z with (1 + -150)%Z. rewrite bpow_plus. reflexivity. }
  set (x := B2R (to32 _)) in *.
  apply Rabs_le_inv in Ev, Ex, Ha.
  change (bpow radix2 (-23)) with (/ 8388608) in *. change (bpow radix2 (-21)) with (/ 2097152).
  (* |sym - t| *)
  assert (St : Rabs (IZR (qsym w) - t) <= / 2 + / 8388608 * t + e150) by (apply Rabs_le; lra).
  assert (Uw : u - B2R w = (IZR (qsym w) - t) * (B2R m / IZR N)) by (unfold u, t; field; lra).
  assert (Pq : 0 < B2R m / IZR N) by (apply Rdiv_lt_0_compat; lra).
  assert (Q1 : B2R m / IZR N <= B2R m).
  { apply Rmult_le_reg_r with (IZR N); [lra|]. unfold Rdiv. rewrite Rmult_assoc, Rinv_l, Rmult_1_r by lra. nra. }
  assert (Eu : Rabs (u - B2R w) <= B2R m / (2 * IZR N) + / 8388608 * B2R w + e150 * B2R m).
  { rewrite Uw, Rabs_mult, (Rabs_pos_eq (B2R m / IZR N)) by lra.
    apply Rle_trans with ((/ 2 + / 8388608 * t + e150) * (B2R m / IZR N)); [apply Rmult_le_compat_r; lra|].
    replace (B2R m / (2 * IZR N)) with (/ 2 * (B2R m / IZR N)) by (field; lra).
    replace (/ 8388608 * B2R w) with (/ 8388608 * t * (B2R m / IZR N)) by (unfold t; field; lra).
    assert (e150 * (B2R m / IZR N) <= e150 * B2R m) by (apply Rmult_le_compat_l; lra). lra. }
  assert (S150 : e150 * B2R m <= / 100000000000 * B2R m).
  { apply Rmult_le_compat_r; [lra|]. apply Rle_trans with (bpow radix2 (-52)); [apply bpow_le; lia|]. pose proof small52; lra. }
  (* u may exceed w; u <= m *)
  apply Rabs_le_inv in Eu. apply Rabs_le. lra.
Qed.
End OneWeight.
