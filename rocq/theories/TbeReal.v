(** Rounding errors of the normalization steps.  Proof file. *)
From Coq Require Import Reals Lra Psatz.
From Flocq Require Import Core.
From Verif Require Import Base BaseLemmas Floats FloatLemmas WeightProofs TimeBlockBuffer DictSpec StochasticEncoder EncSpec StochasticEncoderProofs
  TimeBlockEncoders TbeSpec TbeLoops.
Local Open Scope R_scope.

(** ** Accumulated relative errors: [T v k t] is a product of [k] factors, each
    within [1 - v .. 1/(1 - v)] *)
Definition T (v : R) (k : nat) (t : R) : Prop := (1 - v) ^ k <= t <= / (1 - v) ^ k.

Section T.
Context (v : R) (Hv : 0 < v <= / 2).

Lemma pow_v k : 0 < (1 - v) ^ k <= 1.
Proof. induction k as [|k IH]; cbn; [lra|]. split; [apply Rmult_lt_0_compat; lra|]. nra. Qed.

Lemma T_pos k t : T v k t -> 0 < t.
Proof. intros [A _]. pose proof (pow_v k). lra. Qed.

Lemma T_1 : T v 0 1.
Proof. unfold T. cbn. lra. Qed.

Lemma T_mult j k s t : T v j s -> T v k t -> T v (j + k) (s * t).
Proof.
  intros [A B] [C D]. unfold T. rewrite pow_add. pose proof (pow_v j). pose proof (pow_v k). split.
  - apply Rmult_le_compat; lra.
  - rewrite Rinv_mult. apply Rmult_le_compat; lra.
Qed.

Lemma T_inv k t : T v k t -> T v k (/ t).
Proof.
  intros [A B]. pose proof (pow_v k). split.
  - rewrite <- (Rinv_inv ((1 - v) ^ k)). apply Rinv_le; lra.
  - apply Rinv_le; lra.
Qed.

Lemma T_weaken j k t : (j <= k)%nat -> T v j t -> T v k t.
Proof.
  intros H [A B]. replace k with (j + (k - j))%nat by lia. unfold T. rewrite pow_add. pose proof (pow_v j). pose proof (pow_v (k - j)). split.
  - apply Rle_trans with ((1 - v) ^ j * 1); [apply Rmult_le_compat_l|]; lra.
  - rewrite Rinv_mult. assert (1 <= / (1 - v) ^ (k - j)) by (rewrite <- Rinv_1 at 1; apply Rinv_le; lra).
    assert (0 < / (1 - v) ^ j) by (apply Rinv_0_lt_compat; lra).
    apply Rle_trans with (1 := B). rewrite <- (Rmult_1_r (/ (1 - v) ^ j)) at 1. apply Rmult_le_compat_l; lra.
Qed.

Lemma T_rel r x : Rabs (r - x) <= v * Rabs x -> exists t, T v 1 t /\ r = x * t.
Proof.
  intros H. destruct (Req_dec x 0) as [->|N].
  - exists 1. split; [apply (T_weaken 0 1); [lia|apply T_1]|]. rewrite Rabs_R0, Rmult_0_r, Rminus_0_r in H.
    assert (Rabs r = 0) by (pose proof (Rabs_pos r); lra). destruct (Req_dec r 0) as [->|Q]; [ring|]. apply Rabs_no_R0 in Q. lra.
  - exists (r / x). split; [|field; trivial]. assert (P : Rabs (r / x - 1) <= v).
    { replace (r / x - 1) with ((r - x) * / x) by (field; trivial). rewrite Rabs_mult, Rabs_inv.
      assert (0 < Rabs x) by now apply Rabs_pos_lt. apply Rmult_le_reg_r with (Rabs x); trivial. rewrite Rmult_assoc, Rinv_l by lra. lra. }
    apply Rabs_le_inv in P. unfold T. rewrite pow_1. split; [lra|].
    apply Rle_trans with (1 + v); [lra|]. apply Rmult_le_reg_r with (1 - v); [lra|]. rewrite Rinv_l by lra. nra.
Qed.

Lemma T_near k t : INR k * v <= / 2 -> T v k t -> Rabs (t - 1) <= 2 * INR k * v.
Proof.
  intros H [A B]. assert (P : 1 - INR k * v <= (1 - v) ^ k).
  { clear -Hv. induction k as [|k IH]; [cbn; lra|]. rewrite S_INR. change ((1 - v) ^ S k) with ((1 - v) * (1 - v) ^ k).
    apply Rle_trans with ((1 - v) * (1 - INR k * v)); [|apply Rmult_le_compat_l; lra]. pose proof (pos_INR k).
    assert (0 <= INR k * v * v) by (apply Rmult_le_pos; [apply Rmult_le_pos|]; lra). nra. }
  pose proof (pos_INR k) as K0. assert (P0 : 0 <= INR k * v) by (apply Rmult_le_pos; lra). apply Rabs_le. split; [lra|].
  apply Rle_trans with (/ (1 - INR k * v) - 1).
  - apply Rplus_le_compat_r. eapply Rle_trans; [exact B|]. apply Rinv_le; lra.
  - apply Rplus_le_reg_r with 1. replace (/ (1 - INR k * v) - 1 + 1) with (/ (1 - INR k * v)) by ring.
    apply Rmult_le_reg_r with (1 - INR k * v); [lra|]. rewrite Rinv_l by lra. nra.
Qed.
End T.

(** relative error unit of binary64 *)
Definition v64 : R := bpow radix2 (-52).
Lemma v64_ok : 0 < v64 <= / 2.
Proof. unfold v64. split; [apply bpow_gt_0|]. change (/ 2) with (bpow radix2 (-1)). apply bpow_le. lia. Qed.

(** ** Magnitudes *)
Definition mag (i j : Z) (x : f64) : Prop := is_finite x = true /\ bpow radix2 i <= Rabs (B2R x) <= bpow radix2 j.

Lemma mag_weaken i j i' j' x : mag i j x -> (i' <= i)%Z -> (j <= j')%Z -> mag i' j' x.
Proof.
  intros (F & A & B) Hi Hj. apply (bpow_le radix2) in Hi, Hj. split; trivial. lra.
Qed.
Lemma mag_nz i j x : mag i j x -> B2R x <> 0.
Proof. intros (F & A & B) E. rewrite E, Rabs_R0 in A. pose proof (bpow_gt_0 radix2 i). lra. Qed.

Lemma rn64_mag i j r : bpow radix2 i <= Rabs r <= bpow radix2 j -> (-900 <= i)%Z -> (j <= 1000)%Z ->
  bpow radix2 i <= Rabs (rn64 r) <= bpow radix2 j /\ Rabs (rn64 r) < bpow radix2 1024 /\ exists t, T v64 1 t /\ rn64 r = r * t.
Proof.
  intros [A B] Hi Hj. assert (Q : Rabs (rn64 r) = rn64 (Rabs r)).
  { destruct (Rle_or_lt 0 r) as [P|P].
    - rewrite !Rabs_pos_eq; trivial. now apply rne_ge0.
    - rewrite (Rabs_left1 r) by lra. rewrite rne_opp. apply Rabs_left1. apply rne_le0. lra. }
  assert (Hij : (i <= j)%Z) by (apply (le_bpow radix2); lra).
  assert (H : bpow radix2 i <= Rabs (rn64 r) <= bpow radix2 j).
  { rewrite Q, <- (rne_bpow (p := 53) (e := 1024) i), <- (rne_bpow (p := 53) (e := 1024) j) by lia. split; apply rne_le; lra. }
  split; trivial. split.
  - apply Rle_lt_trans with (bpow radix2 j); [lra|]. apply bpow_lt. lia.
  - apply (T_rel v64 v64_ok). apply rel64. left. eapply Rle_trans; [|exact A]. now apply bpow_le.
Qed.

Lemma op_mag z r i j : op_ok z r -> bpow radix2 i <= Rabs r <= bpow radix2 j -> (-900 <= i)%Z -> (j <= 1000)%Z ->
  mag i j z /\ exists t, T v64 1 t /\ B2R z = r * t.
Proof.
  intros O H Hi Hj. destruct (rn64_mag i j r H Hi Hj) as (A & B & t & Ht & E). destruct (op_ok_finite z r O B) as (F & V).
  split; [|exists t; rewrite V; auto]. split; trivial. now rewrite V.
Qed.

Lemma mul_mag i j i' j' x y : mag i j x -> mag i' j' y -> (-900 <= i + i')%Z -> (j + j' <= 1000)%Z ->
  mag (i + i') (j + j') (mul64 x y) /\ exists t, T v64 1 t /\ B2R (mul64 x y) = B2R x * B2R y * t.
Proof.
  intros (Fx & Ax & Bx) (Fy & Ay & By) Hi Hj. apply op_mag; trivial; [now apply mult_ok|]. rewrite Rabs_mult, !bpow_plus.
  pose proof (bpow_ge_0 radix2 i). pose proof (bpow_ge_0 radix2 i'). split; apply Rmult_le_compat; trivial; apply Rabs_pos.
Qed.

Lemma div_mag i j i' j' x y : mag i j x -> mag i' j' y -> (-900 <= i - j')%Z -> (j - i' <= 1000)%Z ->
  mag (i - j') (j - i') (div64 x y) /\ exists t, T v64 1 t /\ B2R (div64 x y) = B2R x / B2R y * t.
Proof.
  intros (Fx & Ax & Bx) My Hi Hj. pose proof (mag_nz _ _ _ My) as N. destruct My as (Fy & Ay & By).
  apply op_mag; trivial; [now apply div_ok|]. unfold Rdiv. rewrite Rabs_mult, Rabs_inv. unfold Z.sub. rewrite !bpow_plus, !bpow_opp.
  pose proof (bpow_gt_0 radix2 i). pose proof (bpow_gt_0 radix2 i'). pose proof (bpow_gt_0 radix2 j').
  assert (Py : 0 < Rabs (B2R y)) by lra. assert (0 < / Rabs (B2R y)) by now apply Rinv_0_lt_compat.
  assert (0 < / bpow radix2 j') by now apply Rinv_0_lt_compat.
  split; apply Rmult_le_compat; trivial; try lra; apply Rinv_le; lra.
Qed.

Lemma mul_zero x y : is_finite x = true -> is_finite y = true -> B2R x = 0 -> is_finite (mul64 x y) = true /\ B2R (mul64 x y) = 0.
Proof.
  intros Fx Fy E. destruct (op_ok_finite (mul64 x y) (B2R x * B2R y)) as (F & V).
  - now apply mult_ok.
  - rewrite E, Rmult_0_l, rne_0, Rabs_R0. apply bpow_gt_0.
  - rewrite E, Rmult_0_l, rne_0 in V. auto.
Qed.

Lemma mul_zero_r x y : is_finite x = true -> is_finite y = true -> B2R y = 0 -> is_finite (mul64 x y) = true /\ B2R (mul64 x y) = 0.
Proof.
  intros Fx Fy E. destruct (op_ok_finite (mul64 x y) (B2R x * B2R y)) as (F & V).
  - now apply mult_ok.
  - rewrite E, Rmult_0_r, rne_0, Rabs_R0. apply bpow_gt_0.
  - rewrite E, Rmult_0_r, rne_0 in V. auto.
Qed.

Lemma one64_val : is_finite one64 = true /\ B2R one64 = 1.
Proof. apply (ofZ_exact (p := 53) (e := 1024) 1). cbn. lia. Qed.
Lemma one64_mag : mag 0 0 one64.
Proof. destruct one64_val as (F & E). split; trivial. rewrite E, Rabs_R1. cbn. lra. Qed.

Lemma is0_val x : is_finite x = true -> is0 x = true <-> B2R x = 0.
Proof.
  intros F. unfold is0. rewrite Beqb_K by (try apply finite_nan; trivial; reflexivity). rewrite K_finite by trivial. cbn. reflexivity.
Qed.

(** ** Converting between the formats *)
Lemma to64_val (x : f32) : is_finite x = true -> is_finite (to64 x : f64) = true /\ B2R (to64 x : f64) = B2R x.
Proof. intros F. apply conv_widen; trivial; lia. Qed.

Lemma to64_nan (x : f32) : is_nan (to64 x : f64) = is_nan x.
Proof. apply conv_nan. Qed.
Lemma to64_finite (x : f32) : is_finite (to64 x : f64) = is_finite x.
Proof.
  destruct (is_finite x) eqn:F; [now apply to64_val|]. destruct x; try discriminate; reflexivity.
Qed.

Lemma f32_mag (x : f32) : is_finite x = true -> B2R x <> 0 -> mag (-149) 128 (to64 x).
Proof.
  intros F N. destruct (to64_val x F) as (F' & E). split; trivial. rewrite E.
  pose proof (B2R_bounds x) as Bx. split.
  - destruct (Rle_or_lt 0 (B2R x)).
    + rewrite Rabs_pos_eq by lra. apply pos_lower. lra.
    + rewrite Rabs_left by lra. rewrite <- B2R_Bopp. apply pos_lower. rewrite B2R_Bopp. lra.
  - apply Rlt_le. apply Rabs_def1; lra.
Qed.

Definition u32 : R := bpow radix2 (-24).
Definition eta : R := bpow radix2 (-150).

Lemma to32_val (y : f64) : is_finite y = true -> Rabs (B2R y) <= bpow radix2 127 ->
  is_finite (to32 y) = true /\ B2R (to32 y) = rn32 (B2R y) /\ Rabs (B2R (to32 y) - B2R y) <= u32 * Rabs (B2R y) + eta.
Proof.
  intros F H. destruct (op_ok_bounded (to32 y) (B2R y) 127) as (A & B & _); trivial; [now apply conv_ok|lia|].
  split; trivial. split; trivial. rewrite B. apply (rne_err (p := 24) (e := 128)).
Qed.

(** a value just above the largest level is rounded to it *)
Lemma to32_level (y : f64) (L : f32) : is_finite y = true -> is_finite L = true -> 0 < B2R L ->
  Rabs (B2R y) <= B2R L * (1 + bpow radix2 (-40)) ->
  is_finite (to32 y) = true /\ Rabs (B2R (to32 y)) <= B2R L /\ Rabs (B2R (to32 y) - B2R y) <= u32 * Rabs (B2R y) + eta.
Proof.
  intros F FL PL H. assert (N : rn32 (B2R L * (1 + bpow radix2 (-40))) = B2R L).
  { apply rn32_near; trivial. replace (B2R L * (1 + bpow radix2 (-40)) - B2R L) with (bpow radix2 (-40) * B2R L) by ring.
    rewrite Rabs_pos_eq; [lra|]. apply Rmult_le_pos; [apply bpow_ge_0|lra]. }
  assert (A : Rabs (rn32 (B2R y)) <= B2R L).
  { apply Rabs_le_inv in H. apply Rabs_le. rewrite <- N, <- rne_opp. split; apply rne_le; lra. }
  destruct (op_ok_finite (to32 y) (B2R y)) as (F' & V).
  - now apply conv_ok.
  - apply Rle_lt_trans with (1 := A). apply (B2R_bounds L).
  - split; trivial. rewrite V. split; trivial. apply (rne_err (p := 24) (e := 128)).
Qed.

(** ** Maxima of components *)
Lemma abs_finite (x : f64) : is_finite (Babs x) = is_finite x.
Proof. apply is_finite_Babs. Qed.

Lemma component_finite (v : cd) : is_finite (component v) = true <->
  is_finite (fst v) = true /\ (is_finite (snd v) = true \/ is_nan (snd v) = true).
Proof.
  unfold component, std_max. destruct v as [re im]. cbn [fst snd].
  destruct (Bltb (Babs re) (Babs im)) eqn:E.
  - apply Bltb_true in E. destruct E as (N1 & N2 & E). rewrite abs_finite. split.
    + intros F. split; [|now left]. rewrite <- abs_finite. apply finite_K; trivial.
      rewrite (K_finite (Babs im)) in E by now rewrite abs_finite. pose proof (B2R_bounds (Babs im)). pose proof (B_pos (e := 1024)).
      destruct re as [s|s| |s m ex Hb]; try discriminate; cbn [Babs K] in *; try (cbn; lra). 
      pose proof (B2R_bounds (B754_finite false m ex Hb)). lra.
    + intros (F & [G|G]); trivial. destruct im; discriminate.
  - rewrite abs_finite. split; [|tauto]. intros F. split; trivial. destruct (is_nan im) eqn:N; [now right|left].
    apply Bltb_false in E; [|apply finite_nan; now rewrite abs_finite|destruct im; try discriminate; reflexivity].
    rewrite (K_finite (Babs re)) in E by now rewrite abs_finite. pose proof (B2R_bounds (Babs re)).
    destruct im as [s|s| |s m ex Hb]; try discriminate; trivial. cbn [Babs K] in E. lra.
Qed.

Lemma component_val (v : cd) : is_finite (component v) = true ->
  B2R (component v) = Rmax (Rabs (B2R (fst v))) (Rabs (B2R (snd v))).
Proof.
  intros F. pose proof F as F'. apply component_finite in F'. destruct F' as (Fr & Fi). unfold component, std_max in *. destruct v as [re im]. cbn [fst snd] in *.
  destruct (Bltb (Babs re) (Babs im)) eqn:E.
  - rewrite abs_finite in F. apply Bltb_true in E. destruct E as (_ & _ & E). rewrite !K_finite, !B2R_Babs in E by now rewrite abs_finite.
    rewrite B2R_Babs. rewrite Rmax_right; lra.
  - rewrite B2R_Babs. destruct (is_finite im) eqn:G.
    + apply Bltb_false in E; try (apply finite_nan; now rewrite abs_finite). rewrite !K_finite, !B2R_Babs in E by now rewrite abs_finite.
      rewrite Rmax_left; lra.
    + destruct im; try discriminate; cbn [B2R]; rewrite Rabs_R0; rewrite Rmax_left; trivial; apply Rabs_pos.
Qed.

Lemma pick_val m c : is_finite m = true -> is_finite (pick m c) = true /\ B2R m <= B2R (pick m c) /\
  (is_finite c = true -> B2R c <= B2R (pick m c)) /\ (B2R (pick m c) = B2R m \/ is_finite c = true /\ B2R (pick m c) = B2R c).
Proof.
  intros F. unfold pick. destruct (is_finite c) eqn:G; cbn [andb].
  - destruct (Bltb m c) eqn:E.
    + apply Bltb_true in E. destruct E as (_ & _ & E). rewrite !K_finite in E by trivial. split; [trivial|]. split; [lra|]. split; [intros _; lra|]. right. now split.
    + apply Bltb_false in E; try now apply finite_nan. rewrite !K_finite in E by trivial. split; [trivial|]. split; [lra|]. split; [intros _; lra|]. now left.
  - split; [trivial|]. split; [lra|]. split; [discriminate|]. now left.
Qed.

Lemma fold_pick l : forall m, is_finite m = true ->
  let r := fold_left pick l m in is_finite r = true /\ B2R m <= B2R r /\
    (forall c, In c l -> is_finite c = true -> B2R c <= B2R r) /\
    (B2R r = B2R m \/ exists c, In c l /\ is_finite c = true /\ B2R r = B2R c).
Proof.
  induction l as [|c l IH]; intros m F; cbn [fold_left].
  - split; [trivial|]. split; [lra|]. split; [easy|]. now left.
  - destruct (pick_val m c F) as (A1 & A2 & A3 & A4). destruct (IH (pick m c) A1) as (B1 & B2 & B3 & B4).
    split; [trivial|]. split; [lra|]. split.
    + intros c' [->|I] G; [specialize (A3 G); lra|now apply B3].
    + destruct B4 as [B4|(c' & I & G & B4)]; [|right; exists c'; repeat split; trivial; now right].
      destruct A4 as [A4|(G & A4)]; [left; lra|]. right. exists c. repeat split; trivial; [now left|lra].
Qed.

Lemma maxf_val l : is_finite (maxf l) = true /\ 0 <= B2R (maxf l) /\
  (forall c, In c l -> is_finite c = true -> B2R c <= B2R (maxf l)) /\
  (B2R (maxf l) = 0 \/ exists c, In c l /\ is_finite c = true /\ B2R (maxf l) = B2R c).
Proof. exact (fold_pick l zero64 eq_refl). Qed.

(** ** Quantization *)
Lemma bracket e (W : well_formed e) (L : f32) low (t : f32) f : nth_error (dec e) 0 = Some low ->
  nth_error (dec e) (length (dec e) - 1) = Some L -> is_finite t = true -> Rabs (B2R t) <= B2R L ->
  exists s q k lo hi u, EncodeWithDithering e t f = Ok s /\ Decode e s = Ok q /\ is_finite q = true /\
    nth_error (dec e) k = Some lo /\ nth_error (dec e) (S k) = Some hi /\
    B2R lo <= u <= B2R hi /\ (q = lo \/ q = hi) /\ (u = B2R t \/ (B2R t <= u /\ u = B2R low)).
Proof.
  intros N0 NL F Ht. apply Rabs_le_inv in Ht. destruct (dither_bracket e W t f F) as (s & q & E & N & D & C).
  pose proof (wf_dec_finite e W) as FA. pose proof (wf_two e W) as Two. unfold all_finite in FA. rewrite Forall_forall in FA.
  assert (Fin : forall i x, nth_error (dec e) i = Some x -> is_finite x = true) by (intros i x H; apply FA; eapply nth_error_In; eauto).
  pose proof (Fin _ _ N) as Fq. exists s, q.
  destruct C as [(-> & C)|[(-> & C)|[(y & Ny & C1 & C2)|(y & Hs & Ny & C1 & C2)]]].
  - rewrite N0 in N. injection N as <-. apply Bleb_true in C. destruct C as (_ & _ & C). rewrite !K_finite in C by trivial.
    destruct (nth_some (dec e) 1) as (hi & Nh); [lia|]. exists O, low, hi, (B2R low). pose proof (wf_dec_sorted e W 0%nat 1%nat low hi ltac:(lia) N0 Nh) as S. apply Bltb_true in S. destruct S as (_ & _ & S).
    rewrite !K_finite in S by eauto. repeat split; trivial; try lra; auto.
  - rewrite NL in N. injection N as <-. apply Bltb_true in C. destruct C as (_ & _ & C). rewrite !K_finite in C by trivial. lra.
  - apply Bltb_true in C1. apply Bleb_true in C2. destruct C1 as (_ & _ & C1). destruct C2 as (_ & _ & C2). rewrite !K_finite in C1, C2 by eauto.
    rewrite Nat.add_1_r in Ny. exists s, q, y, (B2R t). repeat split; auto; lra.
  - apply Bltb_true in C1. apply Bleb_true in C2. destruct C1 as (_ & _ & C1). destruct C2 as (_ & _ & C2). rewrite !K_finite in C1, C2 by eauto.
    exists (s - 1)%nat, y, q, (B2R t). replace (S (s - 1)) with s by lia. repeat split; auto; lra.
Qed.
