(** The tables of the Gaussian encoder.  Proof file. *)
From Coq Require Import Reals Lra Psatz Lia.
From Flocq Require Import Core.
From Verif Require Import Base BaseLemmas Floats FloatLemmas StochasticEncoder EncSpec EncoderTables InvCumulativeProofs InvAccuracy NormalSpec NormalProofs GaussianInv
  EncoderCtorProofs TimeBlockEncoders TbeSpec TableSpec TableProofs.
Local Open Scope R_scope.

Lemma inv_le F err n m c x : (n <= m)%nat -> invCumulative F err n c = Some x -> invCumulative F err m c = Some x.
Proof. apply (more_le (fun n => invCumulative F err n c) (fun n => inv_more F err n c)). Qed.

(** [c] is the long double used for the probability [p] *)
Definition prob_of (c : f80) (p : R) : Prop := is_finite c = true /\ Rabs (B2R c - p) <= bpow radix2 (-59) /\ (p = / 2 -> B2R c = / 2).

Section Inv.
Context (Phi : R -> R) (N : normal_cdf Phi) (erf : f64 -> f64) (He : erf_accurate Phi erf).
Notation F := (cumulative erf).
Notation u := (bpow radix2 (-59)).

Definition near_q (x z : R) : Prop := Rabs (x - z) <= bpow radix2 (-25) * Rabs z + bpow radix2 (-28).

Lemma z_range p z : / 160000 < p < 1 - / 160000 -> Phi z = p -> -4.5 <= z <= 4.5.
Proof.
  intros H E. pose proof (cdf_tail Phi N) as T. assert (S : Phi (-4.5) = 1 - Phi 4.5) by (rewrite <- (cdf_sym Phi N); f_equal; lra). split; apply Rnot_lt_le; intros L; apply (cdf_incr Phi N) in L.
  - lra.
  - lra.
Qed.

Lemma small_u : 0 < u <= / 100000000000000000.
Proof. split; [apply bpow_gt_0|]. apply Rle_trans with (bpow radix2 (-57)); [apply bpow_le; lia|cbn; lra]. Qed.

(** two quantiles of close probabilities *)
Lemma close_quantiles r z c p : -4.5 <= r <= 4.5 -> -4.5 <= z <= 4.5 -> Phi r = c -> Phi z = p -> Rabs (c - p) <= 2 * u -> Rabs (r - z) <= / 10000000000.
Proof.
  intros Br Bz Er Ez H. pose proof small_u as U. rewrite <- Er, <- Ez in H. apply Rabs_le_inv in H. destruct (Rle_or_lt r z) as [L|L].
  - pose proof (quantile_near Phi N r z ltac:(lra) ltac:(lra)). rewrite Rabs_left1; lra.
  - pose proof (quantile_near Phi N z r ltac:(lra) ltac:(lra)). rewrite Rabs_pos_eq; lra.
Qed.

Lemma upper_half c p : is_finite c = true -> Rabs (B2R c - p) <= 2 * u -> / 2 + / 1000000 <= p <= 1 - / 135000 ->
  exists n x, (forall fuel, (n <= fuel)%nat -> invCumulative F default_err fuel c = Some x) /\ pos80 x /\ forall z, Phi z = p -> near_q (B2R x) z.
Proof.
  intros Fc Hcp Hp. pose proof small_u as U. pose proof Hcp as Hcp'. apply Rabs_le_inv in Hcp'.
  destruct (search_accurate Phi N erf He c Fc ltac:(lra)) as (n & x & En & Px & r & Br & Er & Nr).
  exists (S n), x. split; [|split; [exact Px|]].
  - intros fuel Hf. destruct fuel as [|fuel]; [lia|]. cbn [invCumulative]. destruct half80_val as (Fh & Eh & _). destruct one80_val as (F1 & E1 & _).
    replace (Bltb c half80) with false by (symmetry; destruct (Bltb c half80) eqn:Q; trivial; apply bltb_lt in Q; trivial; lra).
    replace (Beqb c half80) with false.
    2:{ symmetry. destruct (Beqb c half80) eqn:Q; trivial. apply Beqb_K in Q; try (now apply finite_nan). rewrite !K_finite in Q by trivial. lra. }
    replace (Beqb c (of80 1)) with false.
    2:{ symmetry. destruct (Beqb c (of80 1)) eqn:Q; trivial. apply Beqb_K in Q; try (now apply finite_nan). rewrite !K_finite in Q by trivial. lra. }
    replace (Bltb (of80 1) c) with false by (symmetry; destruct (Bltb (of80 1) c) eqn:Q; trivial; apply bltb_lt in Q; trivial; lra).
    apply En. lia.
  - intros z Ez. pose proof (z_range p z ltac:(lra) Ez) as Bz. pose proof (close_quantiles r z (B2R c) p ltac:(lra) Bz Er Ez Hcp) as C.
    unfold near_q, near_quantile in *. apply Rabs_le_inv in C. rewrite (Rabs_pos_eq r) in Nr by lra. pose proof (Rle_abs z) as Az.
    assert (V1 : bpow radix2 (-25) = / 33554432) by (cbn; lra). assert (V2 : bpow radix2 (-29) = / 536870912) by (cbn; lra). assert (V3 : bpow radix2 (-28) = / 268435456) by (cbn; lra).
    rewrite V1, V2 in Nr. rewrite V1, V3. apply Rabs_le_inv in Nr. apply Rabs_le. lra.
Qed.

Lemma inv_accurate c p : prob_of c p -> / 135000 <= p <= 1 - / 135000 -> (p = / 2 \/ / 999999 <= Rabs (p - / 2)) ->
  exists n x, (forall fuel, (n <= fuel)%nat -> invCumulative F default_err fuel c = Some x) /\ is_finite x = true /\ forall z, Phi z = p -> near_q (B2R x) z.
Proof.
  intros (Fc & Ec & Eh2) Hp Hs. pose proof small_u as U. destruct half80_val as (Fh & Eh & _). destruct one80_val as (F1 & E1 & _).
  destruct (Req_dec p (/ 2)) as [E|Ne].
  - specialize (Eh2 E). exists 1%nat, (of80 0). split; [|split; [reflexivity|]].
    + intros fuel Hf. destruct fuel as [|fuel]; [lia|]. cbn [invCumulative].
      replace (Bltb c half80) with false by (symmetry; destruct (Bltb c half80) eqn:Q; trivial; apply bltb_lt in Q; trivial; lra).
      replace (Beqb c half80) with true; [reflexivity|]. symmetry. apply Beqb_K; try (now apply finite_nan). rewrite !K_finite by trivial. lra.
    + intros z Ez. assert (z = 0) by (apply (cdf_inj Phi N); rewrite (nc_half _ N); lra). subst z. unfold near_q. change (B2R (of80 0)) with 0.
      rewrite Rminus_0_r, Rabs_R0. pose proof (bpow_gt_0 radix2 (-28)). lra.
  - destruct Hs as [Hs|Hs]; [lra|]. apply Rabs_le_inv in Ec. destruct (Rle_or_lt (/ 2) p) as [L|L].
    + rewrite Rabs_pos_eq in Hs by lra. destruct (upper_half c p Fc) as (n & x & A & B & C); [apply Rabs_le; lra|lra|]. exists n, x. split; [exact A|]. split; [apply B|exact C].
    + rewrite Rabs_left in Hs by lra.
      destruct (op_ok_bounded _ _ 1 (minus_ok (of80 1) c F1 Fc)) as (Fd & Ed & _); [rewrite E1; change (bpow radix2 1) with 2; apply Rabs_le; lra|lia|].
      fold (sub80 (of80 1) c) in Fd, Ed. rewrite E1 in Ed. pose proof (rn80_err (1 - B2R c) ltac:(apply Rabs_le; lra)) as E2. rewrite <- Ed in E2. apply Rabs_le_inv in E2.
      destruct (upper_half (sub80 (of80 1) c) (1 - p) Fd) as (n & x & A & B & C); [apply Rabs_le; lra|lra|].
      exists (S n), (Bopp x). split; [|split].
      * intros fuel Hf. destruct fuel as [|fuel]; [lia|]. cbn [invCumulative].
        replace (Bltb c half80) with true by (symmetry; apply Bltb_K; try (now apply finite_nan); rewrite !K_finite by trivial; lra).
        rewrite A by lia. reflexivity.
      * rewrite is_finite_Bopp. apply B.
      * intros z Ez. specialize (C (- z)). rewrite (cdf_sym Phi N) in C. specialize (C ltac:(lra)). unfold near_q in *. rewrite B2R_Bopp.
        rewrite Rabs_Ropp in C. replace (- B2R x - z) with (- (B2R x - - z)) by lra. now rewrite Rabs_Ropp.
Qed.

(** ** One entry *)
Lemma sd_val : is_finite (scaled_stddev (of32 1)) = true /\ B2R (scaled_stddev (of32 1)) = 14529495 / 8388608.
Proof.
  assert (G : B2SF (scaled_stddev (of32 1)) = SpecFloat.S754_finite false 14529495 (-23)) by (vm_compute; reflexivity).
  split; [rewrite <- is_finite_SF_B2SF, G; reflexivity|]. rewrite <- (SF2R_B2SF 24 128), G. cbn -[bpow]. unfold F2R. cbn -[bpow].
  change (bpow radix2 (-23)) with (/ 8388608). lra.
Qed.

Definition S3 : R := 14529495 / 8388608.
Definition ea3 : R := bpow radix2 (-25) + bpow radix2 (-24) + / 1000000000000.
Definition eb3 : R := S3 * bpow radix2 (-27).

Lemma entry_accurate c p : prob_of c p -> / 135000 <= p <= 1 - / 135000 -> (p = / 2 \/ / 999999 <= Rabs (p - / 2)) ->
  exists n y, (forall fuel, (n <= fuel)%nat -> gaussian_entry F fuel (scaled_stddev (of32 1)) c = Some y) /\ is_finite y = true /\
    forall z, Phi z = p -> Rabs (B2R y - S3 * z) <= ea3 * Rabs (S3 * z) + eb3.
Proof.
  intros Hc Hp Hs. destruct (inv_accurate c p Hc Hp Hs) as (n & x & En & Fx & Nx). destruct sd_val as (Fs & Es).
  destruct (conv_widen (p' := 64) (e' := 16384) (scaled_stddev (of32 1)) ltac:(lia) ltac:(lia) Fs) as (Fw & Ew). fold (to80 (scaled_stddev (of32 1))) in Fw, Ew.
  set (s := to80 (scaled_stddev (of32 1))) in *. rewrite Es in Ew. fold S3 in Ew.
  destruct (quantile Phi N p ltac:(lra)) as (z & Bz & Ez). pose proof (Nx z Ez) as Nz. unfold near_q in Nz.
  assert (V1 : bpow radix2 (-25) = / 33554432) by (cbn; lra). assert (V2 : bpow radix2 (-27) = / 134217728) by (cbn; lra). assert (V3 : bpow radix2 (-28) = / 268435456) by (cbn; lra).
  assert (V4 : bpow radix2 (-24) = / 16777216) by (cbn; lra).
  rewrite V1, V3 in Nz. assert (Az : Rabs z <= 4.5) by (apply Rabs_le; lra). apply Rabs_le_inv in Nz.
  assert (S3v : 1.732 <= S3 <= 1.7321) by (unfold S3; lra). pose proof (Rabs_pos z) as Pz. assert (Az' : - Rabs z <= z <= Rabs z) by (apply Rabs_le_inv; lra).
  assert (Bx : Rabs (B2R x) <= 4.6) by (apply Rabs_le; lra). apply Rabs_le_inv in Bx.
  assert (Bsx : Rabs (S3 * B2R x) <= 8) by (apply Rabs_le; nra).
  destruct (op_ok_bounded _ _ 3 (mult_ok s x Fw Fx)) as (Fm & Em & Bm); [rewrite Ew; exact Bsx|lia|]. fold (mul80 s x) in Fm, Em, Bm. rewrite Ew in Em.
  pose proof (rn80_err (S3 * B2R x) ltac:(lra)) as E1. rewrite <- Em in E1. set (m := mul80 s x) in *. apply Rabs_le_inv in E1. pose proof small_u as U.
  destruct (op_ok_bounded _ _ 3 (conv_ok (p' := 24) (e' := 128) m Fm)) as (Fy & Ey & _); [exact Bm|lia|]. fold (to32 m) in Fy, Ey. set (y := to32 m) in *.
  pose proof (rne_err (p := 24) (e := 128) (B2R m)) as E2. rewrite <- Ey in E2. change (- (24))%Z with (-24)%Z in E2. rewrite V4 in E2.
  assert (V5 : bpow radix2 (2 - 128 - 24) <= / 1000000000000000) by (apply Rle_trans with (bpow radix2 (-60)); [apply bpow_le; lia|cbn; lra]).
  exists n, y. split; [|split; [exact Fy|]].
  - intros fuel Hf. unfold gaussian_entry. rewrite En by trivial. reflexivity.
  - intros z' Ez'. assert (z' = z) by (apply (cdf_inj Phi N); congruence). subst z'.
    rewrite Rabs_mult, (Rabs_pos_eq S3) by lra. unfold ea3, eb3. rewrite V1, V2, V4.
    set (az := Rabs z) in *.
    assert (D1 : Rabs (S3 * B2R x - S3 * z) <= S3 * (/ 33554432 * az + / 268435456)).
    { rewrite <- Rmult_minus_distr_l, Rabs_mult, (Rabs_pos_eq S3) by lra. apply Rmult_le_compat_l; [lra|]. apply Rabs_le. lra. }
    apply Rabs_le_inv in D1.
    assert (D2 : Rabs (B2R m) <= S3 * az + S3 * (/ 33554432 * az + / 268435456) + u).
    { assert (- (S3 * az) <= S3 * z <= S3 * az) by (split; nra). apply Rabs_le. lra. }
    apply Rabs_le_inv in E2. set (am := Rabs (B2R m)) in *.
    assert (P : 0 <= S3 * az <= 8) by (split; nra). set (w := S3 * az) in *. 
    replace (S3 * (/ 33554432 * az + / 268435456)) with (/ 33554432 * w + / 268435456 * S3) in D1, D2 by (unfold w; ring).
    apply Rabs_le. lra.
Qed.

(** ** The probabilities *)
Lemma prob_div a k n : is_finite a = true -> B2R a = k -> (1 < n < 2 ^ 62)%Z -> 0 <= k <= IZR n -> prob_of (div80 a (of80 n)) (k / IZR n).
Proof.
  intros Fa Ea Hn Hk. destruct (int80_val n ltac:(lia)) as (Fn & En). assert (Pn : 1 < IZR n) by (apply IZR_lt; lia).
  assert (Q : 0 <= k / IZR n <= 1).
  { unfold Rdiv. split; [apply Rmult_le_pos; [lra|]; apply Rlt_le, Rinv_0_lt_compat; lra|]. apply Rmult_le_reg_r with (IZR n); [lra|]. rewrite Rmult_assoc, Rinv_l, Rmult_1_r by lra. lra. }
  pose proof (div_ok a (of80 n) Fa Fn ltac:(lra)) as O. rewrite Ea, En in O.
  destruct (op_ok_bounded _ _ 1 O) as (Fd & Ed & _); [change (bpow radix2 1) with 2; apply Rabs_le; lra|lia|]. fold (div80 a (of80 n)) in *.
  split; [exact Fd|]. split; [rewrite Ed; apply rn80_err; apply Rabs_le; lra|].
  intros E. destruct half80_val as (Fh & Eh & _). destruct (op_ok_exact _ _ half80 O Fh ltac:(lra)) as (_ & E'). rewrite <- E. exact E'.
Qed.

Lemma half_add i : (0 <= i < 2 ^ 62)%Z -> is_finite (add80 (of80 i) half80) = true /\ B2R (add80 (of80 i) half80) = IZR i + / 2.
Proof.
  intros H. destruct (int80_val i ltac:(lia)) as (Fi & Ei). destruct half80_val as (Fh & Eh & _).
  destruct (dy_exact (p := 64) (e := 16384) (2 * i + 1) (-1) ltac:(lia) ltac:(lia) ltac:(lia)) as (Fd & Ed).
  rewrite <- Ei, <- Eh. apply (op_ok_exact _ _ (dy (2 * i + 1) (-1)) (plus_ok (of80 i) half80 Fi Fh) Fd).
  rewrite Ed, Ei, Eh, plus_IZR, mult_IZR. cbn. lra.
Qed.

Context (q : nat) (Hq : (3 <= q)%nat) (Hq2 : (Z.of_nat q <= 65536)%Z).
Notation Nq := (IZR (Z.of_nat q - 1)).

Lemma Nq_val : 2 <= Nq <= 65535.
Proof. split; apply IZR_le; lia. Qed.

(** a fraction k/(2 N) is 1/2 or at least 1/(2 N) away from it *)
Lemma away k : (IZR k / (2 * Nq) = / 2 \/ / 999999 <= Rabs (IZR k / (2 * Nq) - / 2)).
Proof.
  pose proof Nq_val as B. set (n := (Z.of_nat q - 1)%Z) in *. assert (E : IZR k / (2 * IZR n) - / 2 = IZR (k - n) * / (2 * IZR n)) by (rewrite minus_IZR; field; lra).
  assert (I : / 131070 <= / (2 * IZR n)) by (apply Rinv_le_contravar; lra).
  destruct (Z.eq_dec (k - n) 0) as [Z|Z].
  - left. rewrite Z in E. lra.
  - right. rewrite E, Rabs_mult, <- abs_IZR, (Rabs_pos_eq (/ _)) by lra. assert (1 <= IZR (Z.abs (k - n))) by (apply IZR_le; lia). nra.
Qed.

Lemma bnd_entry i : (1 <= i <= q - 2)%nat -> exists n y, (forall fuel, (n <= fuel)%nat -> gaussian_entry F fuel (scaled_stddev (of32 1)) (bnd_prob q i) = Some y) /\ is_finite y = true /\
    forall z, Phi z = bnd_p q i -> Rabs (B2R y - S3 * z) <= ea3 * Rabs (S3 * z) + eb3.
Proof.
  intros Hi. pose proof Nq_val as Bn. unfold bnd_prob. destruct (int80_val (Z.of_nat i) ltac:(lia)) as (Fi & Ei).
  assert (Bi : 1 <= IZR (Z.of_nat i) <= Nq - 1) by (rewrite <- minus_IZR; split; apply IZR_le; lia).
  apply entry_accurate.
  - apply prob_div; trivial; [lia|lra].
  - unfold bnd_p. assert (I : 0 < / Nq) by (apply Rinv_0_lt_compat; lra). assert (I2 : / 65535 <= / Nq) by (apply Rinv_le_contravar; lra).
    assert (E : Nq * / Nq = 1) by (apply Rinv_r; lra). unfold Rdiv. set (v := / Nq) in *. set (k := IZR (Z.of_nat i)) in *. split; nra.
  - replace (bnd_p q i) with (IZR (2 * Z.of_nat i) / (2 * Nq)) by (unfold bnd_p; rewrite mult_IZR; field; lra). apply away.
Qed.

Lemma val_entry i : (i <= q - 2)%nat -> exists n y, (forall fuel, (n <= fuel)%nat -> gaussian_entry F fuel (scaled_stddev (of32 1)) (val_prob q i) = Some y) /\ is_finite y = true /\
    forall z, Phi z = val_p q i -> Rabs (B2R y - S3 * z) <= ea3 * Rabs (S3 * z) + eb3.
Proof.
  intros Hi. pose proof Nq_val as Bn. unfold val_prob. destruct (half_add (Z.of_nat i) ltac:(lia)) as (Fi & Ei).
  assert (Bi : 0 <= IZR (Z.of_nat i) <= Nq - 1) by (rewrite <- minus_IZR; split; apply IZR_le; lia).
  apply entry_accurate.
  - apply prob_div; trivial; [lia|lra].
  - unfold val_p. assert (I : 0 < / Nq) by (apply Rinv_0_lt_compat; lra). assert (I2 : / 65535 <= / Nq) by (apply Rinv_le_contravar; lra).
    assert (E : Nq * / Nq = 1) by (apply Rinv_r; lra). unfold Rdiv. set (v := / Nq) in *. set (k := IZR (Z.of_nat i)) in *. split; nra.
  - replace (val_p q i) with (IZR (2 * Z.of_nat i + 1) / (2 * Nq)) by (unfold val_p; rewrite plus_IZR, mult_IZR; field; lra). apply away.
Qed.

(** ** All entries *)
Lemma gather {A} (f : nat -> nat -> option A) (P : nat -> A -> Prop) from len :
  (forall i, (from <= i < from + len)%nat -> exists n y, (forall fuel, (n <= fuel)%nat -> f fuel i = Some y) /\ P i y) ->
  exists n, forall i, (from <= i < from + len)%nat -> exists y, (forall fuel, (n <= fuel)%nat -> f fuel i = Some y) /\ P i y.
Proof.
  induction len as [|len IH]; intros H; [exists 0%nat; intros; lia|]. destruct IH as (n & Hn); [intros i Hi; apply H; lia|].
  destruct (H (from + len)%nat ltac:(lia)) as (m & y & Em & Py). exists (n + m)%nat. intros i Hi.
  destruct (Nat.eq_dec i (from + len)) as [->|Ne].
  - exists y. split; [|exact Py]. intros fuel Hf. apply Em. lia.
  - destruct (Hn i ltac:(lia)) as (y' & E' & P'). exists y'. split; [|exact P']. intros fuel Hf. apply E'. lia.
Qed.

Lemma entries_some (f : nat -> option f32) g from len : (forall i, (from <= i < from + len)%nat -> f i = Some (g i)) ->
  exists g', entries f from len = Some g' /\ forall i, (from <= i < from + len)%nat -> g' i = g i.
Proof.
  intros H. unfold entries. replace (forallb _ _) with true.
  - eexists. split; [reflexivity|]. intros i Hi. cbn beta. now rewrite H.
  - symmetry. apply forallb_forall. intros i Hi. apply in_seq in Hi. rewrite H by lia. reflexivity.
Qed.

Lemma S3_sqrt : Rabs (S3 - sqrt 3) <= / 30000000.
Proof.
  assert (B : 1.732 < sqrt 3 < 1.7321) by (split; [rewrite <- (sqrt_square 1.732) by lra|rewrite <- (sqrt_square 1.7321) by lra]; apply sqrt_lt_1; lra).
  pose proof (sqrt_sqrt 3 ltac:(lra)) as E. assert (Q : (S3 - sqrt 3) * (S3 + sqrt 3) = S3 * S3 - 3) by lra.
  assert (V : Rabs (S3 * S3 - 3) <= / 9000000) by (unfold S3; apply Rabs_le; lra).
  rewrite <- Q, Rabs_mult, (Rabs_pos_eq (S3 + sqrt 3)) in V by (unfold S3; lra).
  assert (W : Rabs (S3 - sqrt 3) * 3.4 <= Rabs (S3 - sqrt 3) * (S3 + sqrt 3)) by (apply Rmult_le_compat_l; [apply Rabs_pos|unfold S3; lra]). lra.
Qed.

Lemma gaussian_table ea da : length ea = (q - 1)%nat -> length da = q ->
  exists n e, (forall fuel, (n <= fuel)%nat -> gaussian_encoder erf fuel q (of32 1) ea da = Some (Ok e)) /\
    table_of (fun p x => exists z, Phi z = p /\ x = sqrt 3 * z) q e.
Proof.
  intros Hea Hda. set (s := scaled_stddev (of32 1)). pose proof Nq_val as Bn.
  set (fb := fun fuel i => gaussian_entry F fuel s (bnd_prob q i)). set (fv := fun fuel i => gaussian_entry F fuel s (val_prob q i)).
  destruct (gather fb (fun i y => is_finite y = true /\ forall z, Phi z = bnd_p q i -> Rabs (B2R y - S3 * z) <= ea3 * Rabs (S3 * z) + eb3) 1 (q - 2)) as (n1 & H1).
  { intros i Hi. apply bnd_entry. lia. }
  destruct (gather fv (fun i y => is_finite y = true /\ forall z, Phi z = val_p q i -> Rabs (B2R y - S3 * z) <= ea3 * Rabs (S3 * z) + eb3) 0 (q - 1)) as (n2 & H2).
  { intros i Hi. apply val_entry. lia. }
  set (n := (n1 + n2)%nat).
  set (gb := fun i => match fb n i with Some y => y | None => nan32 end). set (gv := fun i => match fv n i with Some y => y | None => nan32 end).
  assert (Gb : forall i, (1 <= i <= q - 2)%nat -> (forall fuel, (n <= fuel)%nat -> fb fuel i = Some (gb i)) /\ is_finite (gb i) = true /\
     forall z, Phi z = bnd_p q i -> Rabs (B2R (gb i) - S3 * z) <= ea3 * Rabs (S3 * z) + eb3).
  { intros i Hi. destruct (H1 i ltac:(lia)) as (y & Ey & Py). assert (E : gb i = y) by (unfold gb; rewrite Ey by (unfold n; lia); reflexivity). rewrite E.
    split; [|exact Py]. intros fuel Hf. apply Ey. unfold n in Hf. lia. }
  assert (Gv : forall i, (i <= q - 2)%nat -> (forall fuel, (n <= fuel)%nat -> fv fuel i = Some (gv i)) /\ is_finite (gv i) = true /\
     forall z, Phi z = val_p q i -> Rabs (B2R (gv i) - S3 * z) <= ea3 * Rabs (S3 * z) + eb3).
  { intros i Hi. destruct (H2 i ltac:(lia)) as (y & Ey & Py). assert (E : gv i = y) by (unfold gv; rewrite Ey by (unfold n; lia); reflexivity). rewrite E.
    split; [|exact Py]. intros fuel Hf. apply Ey. unfold n in Hf. lia. }
  assert (V1 : bpow radix2 (-25) = / 33554432) by (cbn; lra). assert (V2 : bpow radix2 (-27) = / 134217728) by (cbn; lra).
  assert (V4 : bpow radix2 (-24) = / 16777216) by (cbn; lra). assert (V5 : bpow radix2 (-22) = / 4194304) by (cbn; lra). assert (V6 : bpow radix2 (-26) = / 67108864) by (cbn; lra).
  assert (S3v : 1.732 <= S3 <= 1.7321) by (unfold S3; lra).
  assert (A3 : 0 <= ea3 <= / 10000000) by (unfold ea3; rewrite V1, V4; lra). assert (B3 : 0 <= eb3) by (unfold eb3; rewrite V2; lra).
  destruct (table_ok q gb gv ea da (fun p v => exists z, Phi z = p /\ v = S3 * z) ea3 eb3 Hq Hea Hda ltac:(lra) B3) with (quantile := fun p x => exists z, Phi z = p /\ x = sqrt 3 * z) as (e & Ee & Te).
  - intros p Hp. assert (/ 131070 <= / (2 * Nq)) by (apply Rinv_le_contravar; lra). destruct (quantile Phi N p ltac:(lra)) as (z & _ & Ez). eauto.
  - intros i Hi. destruct (Gb i Hi) as (_ & A & B). split; [exact A|]. intros v (z & Ez & ->). auto.
  - intros i Hi. destruct (Gv i Hi) as (_ & A & B). split; [exact A|]. intros v (z & Ez & ->). auto.
  - intros p p' v v' G1 G2 G3 (z & Ez & ->) (z' & Ez' & ->). assert (I : / 131070 <= / (2 * Nq)) by (apply Rinv_le_contravar; lra).
    pose proof (z_range p z ltac:(lra) Ez) as Bz. pose proof (z_range p' z' ltac:(lra) Ez') as Bz'.
    pose proof (quantile_gap Phi N z z' ltac:(lra)) as Gap. rewrite Ez, Ez' in Gap.
    assert (Gap2 : / 66000 <= z' - z) by lra. rewrite !Rabs_mult, (Rabs_pos_eq S3) by lra.
    assert (Rabs z <= 4.5) by (apply Rabs_le; lra). assert (Rabs z' <= 4.5) by (apply Rabs_le; lra). pose proof (Rabs_pos z). pose proof (Rabs_pos z').
    assert (ea3 * (S3 * Rabs z + S3 * Rabs z') <= / 10000000 * (S3 * 9)) by (apply Rmult_le_compat; nra).
    unfold eb3. rewrite V2. nra.
  - intros p v Hp (z & Ez & ->). exists (- z). split; [rewrite (cdf_sym Phi N); lra|lra].
  - intros v (z & Ez & ->). assert (I : / (2 * Nq) <= / 4) by (apply Rinv_le_contravar; lra).
    pose proof (quantile_gap Phi N 0 z ltac:(rewrite (nc_half _ N); lra)) as Gap. rewrite (nc_half _ N) in Gap.
    assert (Hz : / 2 <= z) by lra. split; [nra|]. unfold eb3, ea3. rewrite V1, V2, V4, V5. set (w := S3 * z). assert (S3 / 2 <= w) by (unfold w; nra). nra.
  - intros p z' x (z & Ez & ->) A. specialize (A (S3 * z) ltac:(eauto)). unfold close32.
    replace (B2R x - sqrt 3 * z) with ((B2R x - S3 * z) + (S3 - sqrt 3) * z) by ring. apply Rle_trans with (1 := Rabs_triang _ _).
    assert (B : 1.732 < sqrt 3) by (rewrite <- (sqrt_square 1.732) by lra; apply sqrt_lt_1; lra).
    rewrite (Rabs_mult (S3 - sqrt 3)), (Rabs_mult (sqrt 3)), (Rabs_pos_eq (sqrt 3)) by lra. rewrite Rabs_mult, (Rabs_pos_eq S3) in A by lra. pose proof (Rabs_pos z) as Pz. pose proof S3_sqrt as D.
    assert (Rabs (S3 - sqrt 3) * Rabs z <= / 30000000 * Rabs z) by (apply Rmult_le_compat_r; trivial).
    unfold ea3, eb3 in A. rewrite V1, V2, V4 in A. rewrite V5, V6. nra.
  - exists n, e. split; [|exact Te].
    intros fuel Hf. unfold gaussian_encoder. fold s.
      destruct (entries_some (fb fuel) gb 1 (q - 2)) as (gb' & Eb & Gb'); [intros i Hi; apply Gb; trivial; lia|].
      destruct (entries_some (fv fuel) gv 0 (q - 1)) as (gv' & Ev & Gv'); [intros i Hi; apply Gv; trivial; lia|].
      unfold fb in Eb. unfold fv in Ev. rewrite Eb, Ev. f_equal. rewrite <- Ee, !construct_ok by (trivial; lia). do 2 f_equal.
    + f_equal. apply map_ext_in. intros i Hi. apply in_seq in Hi. apply Gb'. lia.
    + apply map_ext_in. intros i Hi. apply in_seq in Hi. apply Gv'. lia.
Qed.
End Inv.
