(** Error of scaling, quantizing and decoding one component.  Proof file. *)
From Coq Require Import Reals Lra Psatz.
From Flocq Require Import Core.
From Verif Require Import Base BaseLemmas Floats FloatLemmas WeightProofs TimeBlockBuffer DictSpec StochasticEncoder EncSpec StochasticEncoderProofs
  TimeBlockEncoders TbeSpec TbeLoops TbeReal.
Local Open Scope R_scope.

Lemma u32_val : u32 = / 16777216.
Proof. unfold u32. cbn. lra. Qed.
Lemma eta_pos : 0 < eta.
Proof. apply bpow_gt_0. Qed.
Lemma eta_big : eta * bpow radix2 128 <= / 4194304.
Proof. unfold eta. rewrite <- bpow_plus. change (-150 + 128)%Z with (-22)%Z. cbn. lra. Qed.
Lemma eta_small : eta <= / 4194304.
Proof.
  pose proof eta_big. pose proof eta_pos. assert (1 <= bpow radix2 128) by (change 1 with (bpow radix2 0); apply bpow_le; lia). nra.
Qed.

Lemma T8 k t : (k <= 8)%nat -> T v64 k t -> Rabs (t - 1) <= bpow radix2 (-48).
Proof.
  intros Hk H. apply (T_weaken v64 v64_ok k 8 t Hk) in H. pose proof (T_near v64 v64_ok 8 t) as N.
  assert (E : INR 8 = 8) by (cbn; lra). rewrite E in N.
  assert (V : v64 * 16 = bpow radix2 (-48)) by (unfold v64; change 16 with (bpow radix2 4); rewrite <- bpow_plus; f_equal).
  assert (S : bpow radix2 (-48) <= / 2) by (change (/ 2) with (bpow radix2 (-1)); apply bpow_le; lia).
  eapply Rle_trans; [apply N; trivial; lra|lra].
Qed.

Lemma p48 : 0 < bpow radix2 (-48) <= / 281474976710656.
Proof. split; [apply bpow_gt_0|]. cbn. lra. Qed.

(** the quantized component *)
Lemma levels_finite e L : levels e L -> is_finite L = true.
Proof.
  intros V. pose proof (wf_dec_finite e (lv_wf e L V)) as FA. unfold all_finite in FA. rewrite Forall_forall in FA.
  pose proof (lv_max e L V) as M. unfold MaxQuantity, rd in M. destruct (nth_error (dec e) (length (dec e) - 1)) eqn:N; [|discriminate].
  injection M as ->. apply FA. eapply nth_error_In; eauto.
Qed.

Lemma level_range e L k x : levels e L -> nth_error (dec e) k = Some x -> is_finite x = true /\ Rabs (B2R x) <= B2R L * (1 + bpow radix2 (-22)).
Proof.
  intros V N. pose proof (levels_finite e L V) as FL. destruct V as [W M P (low & N0 & Elow)].
  pose proof (wf_dec_finite e W) as FA. unfold all_finite in FA. rewrite Forall_forall in FA.
  assert (Fin : forall i x, nth_error (dec e) i = Some x -> is_finite x = true) by (intros i z H; apply FA; eapply nth_error_In; eauto).
  split; [eauto|]. unfold MaxQuantity, rd in M. destruct (nth_error (dec e) (length (dec e) - 1)) eqn:NL; [|discriminate]. injection M as ->.
  pose proof (nth_lt _ _ _ N) as Hk. apply Rabs_le_inv in Elow. assert (0 <= bpow radix2 (-22) * B2R L) by (apply Rmult_le_pos; [apply bpow_ge_0|lra]).
  apply Rabs_le. split.
  - destruct k as [|k]; [rewrite N0 in N; injection N as ->; lra|].
    pose proof (wf_dec_sorted e W 0%nat (S k) low x ltac:(lia) N0 N) as S. apply Bltb_true in S. destruct S as (_ & _ & S). rewrite !K_finite in S by eauto. lra.
  - destruct (Nat.eq_dec k (length (dec e) - 1)) as [->|Q]; [rewrite NL in N; injection N as ->; lra|].
    pose proof (wf_dec_sorted e W k (length (dec e) - 1)%nat x L ltac:(lia) N NL) as S. apply Bltb_true in S. destruct S as (_ & _ & S). rewrite !K_finite in S by eauto. lra.
Qed.

Lemma quantized e L g k (y : f64) : levels e L -> is_finite y = true -> Rabs (B2R y) <= B2R L * (1 + bpow radix2 (-40)) ->
  exists s q j lo hi t, enc_value e (Some g) k y = Ok s /\ Decode e s = Ok q /\ is_finite q = true /\ Rabs (B2R q) <= B2R L * (1 + bpow radix2 (-22)) /\
    nth_error (dec e) j = Some lo /\ nth_error (dec e) (S j) = Some hi /\ B2R lo <= t <= B2R hi /\
    Rabs (B2R q - t) <= B2R hi - B2R lo /\ Rabs (t - B2R y) <= u32 * Rabs (B2R y) + eta + bpow radix2 (-22) * B2R L.
Proof.
  intros V F H. pose proof (levels_finite e L V) as FL. pose proof V as [W M P (low & N0 & Elow)].
  destruct (to32_level y L F FL P H) as (F32 & B32 & E32).
  unfold MaxQuantity, rd in M. destruct (nth_error (dec e) (length (dec e) - 1)) eqn:NL; [|discriminate]. injection M as ->.
  destruct (bracket e W L low (to32 y) (g k) N0 NL F32 B32) as (s & q & j & lo & hi & u & E & D & Fq & Nlo & Nhi & Bt & Q & Ut).
  exists s, q, j, lo, hi, u. pose proof (level_range e L _ _ V Nlo) as (_ & Rlo). pose proof (level_range e L _ _ V Nhi) as (_ & Rhi).
  repeat split; trivial; try lra.
  - destruct Q as [->| ->]; trivial.
  - apply Rabs_le. destruct Q as [->| ->]; lra.
  - assert (Ha : 0 <= bpow radix2 (-22) * B2R L) by (apply Rmult_le_pos; [apply bpow_ge_0|lra]).
    destruct Ut as [->|(Ut & ->)]; [lra|]. apply Rabs_le_inv in Elow, B32, E32. apply Rabs_le. lra.
Qed.

(** the decoded component *)
Definition nice (F : f64) : Prop := is_finite F = true /\ (B2R F = 0 \/ mag (-600) 600 F).

Lemma decode_val (q : f32) (F : f64) : is_finite q = true -> nice F -> Rabs (B2R q * B2R F) <= bpow radix2 126 ->
  let d := to32 (mul64 (to64 q) F) in is_finite d = true /\
  Rabs (B2R d - B2R q * B2R F) <= (u32 + bpow radix2 (-47)) * Rabs (B2R q * B2R F) + eta.
Proof.
  intros Fq (FF & HF) Hb d. destruct (to64_val q Fq) as (Fq' & Eq).
  assert (B126 : 0 < bpow radix2 126) by apply bpow_gt_0. assert (B127 : bpow radix2 127 = 2 * bpow radix2 126) by (change 127%Z with (1 + 126)%Z; rewrite bpow_plus; cbn; lra).
  assert (P : is_finite (mul64 (to64 q) F) = true /\ Rabs (B2R (mul64 (to64 q) F) - B2R q * B2R F) <= bpow radix2 (-48) * Rabs (B2R q * B2R F)).
  { destruct HF as [Z|M].
    - destruct (mul_zero_r (to64 q) F Fq' FF Z) as (A & B). split; trivial. rewrite B, Z, Rmult_0_r, Rminus_0_r, Rabs_R0. lra.
    - destruct (Req_dec (B2R q) 0) as [Z|N].
      + destruct (mul_zero (to64 q) F Fq' FF) as (A & B); [lra|]. split; trivial. rewrite B, Z, Rmult_0_l, Rminus_0_r, Rabs_R0. lra.
      + destruct (mul_mag (-149) 128 (-600) 600 (to64 q) F (f32_mag q Fq N) M) as (A & t & Ht & E); [lia|lia|].
        split; [apply A|]. rewrite E, Eq. replace (B2R q * B2R F * t - B2R q * B2R F) with ((t - 1) * (B2R q * B2R F)) by ring.
        rewrite Rabs_mult. apply Rmult_le_compat_r; [apply Rabs_pos|]. apply (T8 1); [lia|trivial]. }
  destruct P as (FP & EP). set (p := mul64 (to64 q) F) in *. pose proof p48 as P48. pose proof (Rabs_pos (B2R q * B2R F)) as Pos.
  assert (Bp : Rabs (B2R p) <= (1 + bpow radix2 (-48)) * Rabs (B2R q * B2R F)).
  { replace (B2R p) with ((B2R p - B2R q * B2R F) + B2R q * B2R F) by ring. eapply Rle_trans; [apply Rabs_triang|]. lra. }
  destruct (to32_val p FP) as (A & _ & B); [nra|]. split; [exact A|]. unfold d. fold p.
  replace (B2R (to32 p) - B2R q * B2R F) with ((B2R (to32 p) - B2R p) + (B2R p - B2R q * B2R F)) by ring.
  eapply Rle_trans; [apply Rabs_triang|].
  assert (E47 : bpow radix2 (-47) = 2 * bpow radix2 (-48)) by (change (-47)%Z with (1 + -48)%Z; rewrite bpow_plus; cbn; lra).
  rewrite E47. rewrite u32_val in *. nra.
Qed.

Lemma total_err x t q d phi F L g e1 e2 w : 0 <= phi -> 0 <= L -> 0 <= w -> Rabs q <= L -> Rabs (q - t) <= g -> Rabs (t * phi - x) <= e1 ->
  Rabs (F - phi) <= e2 -> Rabs (d - q * F) <= w * Rabs (q * F) + eta ->
  Rabs (d - x) <= g * phi + e1 + L * e2 + w * (L * (phi + e2)) + eta.
Proof.
  intros Hphi HL Hw Hq Hg H1 H2 Hd.
  assert (HF : Rabs F <= phi + e2).
  { replace F with ((F - phi) + phi) by ring. eapply Rle_trans; [apply Rabs_triang|]. rewrite (Rabs_pos_eq phi) by trivial. lra. }
  assert (HqF : Rabs (q * F) <= L * (phi + e2)) by (rewrite Rabs_mult; apply Rmult_le_compat; trivial; apply Rabs_pos).
  replace (d - x) with ((d - q * F) + (q * (F - phi) + ((q - t) * phi + (t * phi - x)))) by ring.
  eapply Rle_trans; [apply Rabs_triang|]. 
  assert (A1 : Rabs (q * (F - phi)) <= L * e2) by (rewrite Rabs_mult; apply Rmult_le_compat; trivial; apply Rabs_pos).
  assert (A2 : Rabs ((q - t) * phi) <= g * phi) by (rewrite Rabs_mult, (Rabs_pos_eq phi) by trivial; now apply Rmult_le_compat_r).
  assert (A3 : w * Rabs (q * F) <= w * (L * (phi + e2))) by now apply Rmult_le_compat_l.
  pose proof (Rabs_triang (q * (F - phi)) ((q - t) * phi + (t * phi - x))). pose proof (Rabs_triang ((q - t) * phi) (t * phi - x)). lra.
Qed.

(** scaled value [y = x / phi] up to [T v64 k], then rounded to [t] *)
Lemma scaled_err x y t phi s k d : 0 < phi -> (k <= 8)%nat -> T v64 k s -> y * phi = x * s -> Rabs (t - y) <= u32 * Rabs y + eta + d ->
  Rabs (t * phi - x) <= (u32 + bpow radix2 (-47)) * Rabs x + eta * phi + d * phi.
Proof.
  intros Hphi Hk Hs Ey Ht. apply T8 in Hs; trivial. pose proof p48 as P48. pose proof (Rabs_pos x) as Px.
  assert (A : Rabs (y * phi) <= (1 + bpow radix2 (-48)) * Rabs x).
  { rewrite Ey. replace (x * s) with (x * (s - 1) + x) by ring. eapply Rle_trans; [apply Rabs_triang|]. rewrite Rabs_mult. nra. }
  replace (t * phi - x) with ((t - y) * phi + x * (s - 1)) by (rewrite Rmult_minus_distr_r, Ey; ring).
  eapply Rle_trans; [apply Rabs_triang|]. rewrite (Rabs_mult x). rewrite Rabs_mult, (Rabs_pos_eq phi) by lra.
  rewrite Rabs_mult, (Rabs_pos_eq phi) in A by lra.
  assert (E47 : bpow radix2 (-47) = 2 * bpow radix2 (-48)) by (change (-47)%Z with (1 + -48)%Z; rewrite bpow_plus; cbn; lra).
  rewrite E47. assert (B : Rabs (t - y) * phi <= (u32 * Rabs y + eta + d) * phi) by (apply Rmult_le_compat_r; lra).
  rewrite u32_val in *. assert (C : Rabs x * Rabs (s - 1) <= Rabs x * bpow radix2 (-48)) by (now apply Rmult_le_compat_l). nra.
Qed.

(** a stored factor *)
Lemma stored_err (m : f64) phi s k : is_finite m = true -> 0 <= phi -> (k <= 8)%nat -> T v64 k s -> B2R m = phi * s -> Rabs (B2R m) <= bpow radix2 127 ->
  is_finite (to32 m) = true /\ Rabs (B2R (to32 m) - phi) <= (u32 + bpow radix2 (-47)) * phi + eta.
Proof.
  intros F Hphi Hk Hs Em Hb. destruct (to32_val m F Hb) as (A & _ & B). split; trivial. apply T8 in Hs; trivial. pose proof p48 as P48.
  assert (C : Rabs (B2R m - phi) <= bpow radix2 (-48) * phi).
  { rewrite Em. replace (phi * s - phi) with ((s - 1) * phi) by ring. rewrite Rabs_mult, (Rabs_pos_eq phi) by trivial. now apply Rmult_le_compat_r. }
  assert (D : Rabs (B2R m) <= (1 + bpow radix2 (-48)) * phi).
  { replace (B2R m) with ((B2R m - phi) + phi) by ring. eapply Rle_trans; [apply Rabs_triang|]. rewrite (Rabs_pos_eq phi) by trivial. lra. }
  replace (B2R (to32 m) - phi) with ((B2R (to32 m) - B2R m) + (B2R m - phi)) by ring. eapply Rle_trans; [apply Rabs_triang|].
  assert (E47 : bpow radix2 (-47) = 2 * bpow radix2 (-48)) by (change (-47)%Z with (1 + -48)%Z; rewrite bpow_plus; cbn; lra).
  rewrite E47. rewrite u32_val in *. nra.
Qed.

Lemma f32_nice (x : f32) : is_finite x = true -> nice (to64 x).
Proof.
  intros F. destruct (to64_val x F) as (F' & E). split; trivial. destruct (Req_dec (B2R x) 0) as [Z|N]; [left; lra|right].
  eapply mag_weaken; [now apply f32_mag|lia|lia].
Qed.
