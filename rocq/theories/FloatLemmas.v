(** Facts about IEEE comparison and rounding, used by all floating point proofs.
    [K x] is the real value of a non-NaN number, with an infinity mapped to
    [2^emax], which is larger than every finite number. *)
From Coq Require Import Reals Lra.
From Flocq Require Import Plus_error Relative Mult_error.
From Verif Require Import Base Floats.
Local Open Scope R_scope.

#[export] Instance fx_valid p e {Hp : Prec_gt_0 p} : Valid_exp (SpecFloat.fexp p e).
Proof. apply (FLT_exp_valid (3 - e - p) p). Qed.

Section Key.
Context {p e : Z} {Hp : Prec_gt_0 p} {He : Prec_lt_emax p e}.
Notation fl := (binary_float p e).
Notation B := (bpow radix2 e).

Definition K (x : fl) : R :=
  match x with
  | B754_infinity s => if s then - B else B
  | _ => B2R x
  end.

Lemma K_finite (x : fl) : is_finite x = true -> K x = B2R x.
Proof. destruct x; try discriminate; reflexivity. Qed.

Lemma B_pos : 0 < B.
Proof. apply bpow_gt_0. Qed.

Lemma B2R_bounds (x : fl) : - B < B2R x < B.
Proof. pose proof (abs_B2R_lt_emax p e x) as H. apply Rabs_def2 in H. lra. Qed.

Lemma K_bounds (x : fl) : - B <= K x <= B.
Proof.
  pose proof B_pos. pose proof (B2R_bounds x).
  destruct x as [s|[|]| |s m ex Hb]; cbn [K]; lra.
Qed.

Lemma finite_K (x : fl) : is_nan x = false -> (is_finite x = true <-> - B < K x < B).
Proof.
  intros Hn. pose proof (B2R_bounds x). pose proof B_pos.
  destruct x as [s|[|]| |s m ex Hb]; try discriminate; cbn [K is_finite]; split; intros; try lra; try easy.
Qed.

Lemma Bcompare_K (x y : fl) : is_nan x = false -> is_nan y = false ->
  Bcompare x y = Some (Rcompare (K x) (K y)).
Proof.
  intros Hx Hy. pose proof B_pos as HB.
  pose proof (B2R_bounds x) as Bx. pose proof (B2R_bounds y) as By.
  destruct x as [s|s| |s m ex Hb]; try discriminate;
  destruct y as [s'|s'| |s' m' ex' Hb']; try discriminate;
  try (rewrite Bcompare_correct by reflexivity; reflexivity);
  try (destruct s); try (destruct s'); cbn [K]; unfold Bcompare; cbn [B2SF SpecFloat.SFcompare];
  f_equal; symmetry;
  first [apply Rcompare_Eq; reflexivity
        |apply Rcompare_Lt; cbn [B2R] in *; lra
        |apply Rcompare_Gt; cbn [B2R] in *; lra].
Qed.

Lemma Bltb_nan_l (x y : fl) : is_nan x = true -> Bltb x y = false.
Proof. destruct x; try discriminate. reflexivity. Qed.
Lemma Bltb_nan_r (x y : fl) : is_nan y = true -> Bltb x y = false.
Proof. destruct y; try discriminate. destruct x as [|[|]| |[|]]; reflexivity. Qed.
Lemma Bleb_nan_l (x y : fl) : is_nan x = true -> Bleb x y = false.
Proof. destruct x; try discriminate. reflexivity. Qed.
Lemma Bleb_nan_r (x y : fl) : is_nan y = true -> Bleb x y = false.
Proof. destruct y; try discriminate. destruct x as [|[|]| |[|]]; reflexivity. Qed.

Lemma Bltb_K (x y : fl) : is_nan x = false -> is_nan y = false ->
  (Bltb x y = true <-> K x < K y).
Proof.
  intros Hx Hy. pose proof (Bcompare_K x y Hx Hy) as H.
  unfold Bcompare in H. unfold Bltb, SpecFloat.SFltb. rewrite H.
  destruct (Rcompare_spec (K x) (K y)); split; intros; try easy; lra.
Qed.

Lemma Bleb_K (x y : fl) : is_nan x = false -> is_nan y = false ->
  (Bleb x y = true <-> K x <= K y).
Proof.
  intros Hx Hy. pose proof (Bcompare_K x y Hx Hy) as H.
  unfold Bcompare in H. unfold Bleb, SpecFloat.SFleb. rewrite H.
  destruct (Rcompare_spec (K x) (K y)); split; intros; try easy; lra.
Qed.

Lemma Beqb_K (x y : fl) : is_nan x = false -> is_nan y = false ->
  (Beqb x y = true <-> K x = K y).
Proof.
  intros Hx Hy. pose proof (Bcompare_K x y Hx Hy) as H.
  unfold Bcompare in H. unfold Beqb, SpecFloat.SFeqb. rewrite H.
  destruct (Rcompare_spec (K x) (K y)); split; intros; try easy; lra.
Qed.

Lemma Bltb_true (x y : fl) : Bltb x y = true -> is_nan x = false /\ is_nan y = false /\ K x < K y.
Proof.
  intros H.
  destruct (is_nan x) eqn:Ex; [rewrite (Bltb_nan_l x y Ex) in H; discriminate|].
  destruct (is_nan y) eqn:Ey; [rewrite (Bltb_nan_r x y Ey) in H; discriminate|].
  repeat split. now apply Bltb_K.
Qed.

Lemma Bleb_true (x y : fl) : Bleb x y = true -> is_nan x = false /\ is_nan y = false /\ K x <= K y.
Proof.
  intros H.
  destruct (is_nan x) eqn:Ex; [rewrite (Bleb_nan_l x y Ex) in H; discriminate|].
  destruct (is_nan y) eqn:Ey; [rewrite (Bleb_nan_r x y Ey) in H; discriminate|].
  repeat split. now apply Bleb_K.
Qed.

Lemma Bltb_false (x y : fl) : Bltb x y = false -> is_nan x = false -> is_nan y = false -> K y <= K x.
Proof.
  intros H Hx Hy. destruct (Rle_or_lt (K y) (K x)) as [L|L]; [exact L|].
  apply Bltb_K in L; trivial. congruence.
Qed.

Lemma Bleb_false (x y : fl) : Bleb x y = false -> is_nan x = false -> is_nan y = false -> K y < K x.
Proof.
  intros H Hx Hy. destruct (Rlt_or_le (K y) (K x)) as [L|L]; [exact L|].
  apply Bleb_K in L; trivial. congruence.
Qed.

Lemma Bleb_Bltb_trans (x y z : fl) : Bleb x y = true -> Bltb y z = true -> Bltb x z = true.
Proof.
  intros H1 H2. apply Bleb_true in H1. apply Bltb_true in H2.
  apply Bltb_K; try tauto. lra.
Qed.

Lemma Bltb_Bleb_trans (x y z : fl) : Bltb x y = true -> Bleb y z = true -> Bltb x z = true.
Proof.
  intros H1 H2. apply Bleb_true in H2. apply Bltb_true in H1.
  apply Bltb_K; try tauto. lra.
Qed.

Lemma Bleb_trans (x y z : fl) : Bleb x y = true -> Bleb y z = true -> Bleb x z = true.
Proof.
  intros H1 H2. apply Bleb_true in H1. apply Bleb_true in H2.
  apply Bleb_K; try tauto. lra.
Qed.

Lemma Bltb_Bleb (x y : fl) : Bltb x y = true -> Bleb x y = true.
Proof. intros H. apply Bltb_true in H. apply Bleb_K; try tauto. lra. Qed.

Lemma Bltb_irrefl (x : fl) : Bltb x x = false.
Proof.
  destruct (Bltb x x) eqn:H; trivial. apply Bltb_true in H. lra.
Qed.

Lemma Bleb_refl (x : fl) : is_nan x = false -> Bleb x x = true.
Proof. intros. apply Bleb_K; trivial. lra. Qed.

(** ** Rounding *)
Notation fx := (SpecFloat.fexp p e).

Definition rne (x : R) : R := round radix2 fx ZnearestE x.
(** rounded to nearest even, with overflow *)
Definition RN (x : R) : R := Rmax (- B) (Rmin B (rne x)).

Lemma rne_le (x y : R) : x <= y -> rne x <= rne y.
Proof. intros. unfold rne. apply round_le; auto with typeclass_instances. Qed.

Lemma RN_le (x y : R) : x <= y -> RN x <= RN y.
Proof.
  intros H. unfold RN. apply rne_le in H.
  apply Rle_max_compat_l. now apply Rle_min_compat_l.
Qed.

Lemma RN_inner (x : R) : Rabs (rne x) < B -> RN x = rne x.
Proof.
  intros H. apply Rabs_def2 in H. unfold RN.
  rewrite Rmin_right by lra. rewrite Rmax_right by lra. reflexivity.
Qed.

Lemma RN_pos (x : R) : B <= rne x -> RN x = B.
Proof. intros H. pose proof B_pos. unfold RN. rewrite Rmin_left by lra. rewrite Rmax_right by lra. reflexivity. Qed.
Lemma RN_neg (x : R) : rne x <= - B -> RN x = - B.
Proof. intros H. pose proof B_pos. unfold RN. rewrite Rmin_right by lra. rewrite Rmax_left by lra. reflexivity. Qed.

Lemma rne_0 : rne 0 = 0.
Proof. apply round_0; auto with typeclass_instances. Qed.
Lemma RN_0 : RN 0 = 0.
Proof. rewrite RN_inner; rewrite rne_0; trivial. rewrite Rabs_R0. apply B_pos. Qed.

Lemma rne_id (x : fl) : rne (B2R x) = B2R x.
Proof. apply round_generic; auto with typeclass_instances. apply generic_format_B2R. Qed.

Lemma RN_B2R (x : fl) : RN (B2R x) = B2R x.
Proof. rewrite RN_inner; rewrite rne_id; trivial. apply abs_B2R_lt_emax. Qed.

Lemma rne_ge0 (x : R) : 0 <= x -> 0 <= rne x.
Proof. intros H. rewrite <- rne_0. now apply rne_le. Qed.
Lemma rne_le0 (x : R) : x <= 0 -> rne x <= 0.
Proof. intros H. rewrite <- rne_0. now apply rne_le. Qed.
Lemma RN_ge0 (x : R) : 0 <= x -> 0 <= RN x.
Proof. intros H. rewrite <- RN_0. now apply RN_le. Qed.
Lemma RN_le0 (x : R) : x <= 0 -> RN x <= 0.
Proof. intros H. rewrite <- RN_0. now apply RN_le. Qed.

Lemma rne_opp (x : R) : rne (- x) = - rne x.
Proof. unfold rne. apply round_NE_opp. Qed.
Lemma RN_opp (x : R) : RN (- x) = - RN x.
Proof.
  unfold RN. rewrite rne_opp. generalize (rne x). intros y. pose proof B_pos.
  unfold Rmax, Rmin. repeat destruct Rle_dec; lra.
Qed.

(** result of an operation: not NaN, and its key is the rounded exact result *)
Definition op_ok (z : fl) (r : R) : Prop := is_nan z = false /\ K z = RN r.

Lemma overflow_key (z : fl) (s : bool) (r : R) :
  B2SF z = binary_overflow p e mode_NE s -> B <= Rabs (rne r) -> (if s then r <= 0 else 0 <= r) ->
  op_ok z r.
Proof.
  intros Hz Hr Hs. unfold binary_overflow in Hz. cbn in Hz.
  destruct z as [sz|sz| |sz mz ez Hbz]; try discriminate. cbn in Hz. injection Hz as ->.
  split; [reflexivity|]. cbn [K].
  destruct s; symmetry.
  - apply RN_neg. apply rne_le0 in Hs. rewrite Rabs_left1 in Hr by trivial. lra.
  - apply RN_pos. apply rne_ge0 in Hs. rewrite Rabs_pos_eq in Hr by trivial. lra.
Qed.

Lemma finite_nan (x : fl) : is_finite x = true -> is_nan x = false.
Proof. destruct x; easy. Qed.

Lemma inner_key (z : fl) (r : R) :
  Rabs (rne r) < B -> B2R z = rne r -> is_finite z = true -> op_ok z r.
Proof.
  intros H1 H2 H3. split; [now apply finite_nan|].
  rewrite K_finite by trivial. rewrite RN_inner; trivial.
Qed.

Lemma sign_le0 (x : fl) : Bsign x = true -> B2R x <= 0.
Proof.
  destruct x as [[|]|[|]| |[|] m ex Hb]; cbn; intros; try easy; try lra.
  apply F2R_le_0. cbn. lia.
Qed.
Lemma sign_ge0 (x : fl) : Bsign x = false -> 0 <= B2R x.
Proof.
  destruct x as [[|]|[|]| |[|] m ex Hb]; cbn; intros; try easy; try lra.
  apply F2R_ge_0. cbn. lia.
Qed.

Lemma sign_lt0 (x : fl) : is_finite x = true -> B2R x < 0 -> Bsign x = true.
Proof. intros _ H. destruct (Bsign x) eqn:E; trivial. apply sign_ge0 in E. lra. Qed.
Lemma sign_gt0 (x : fl) : is_finite x = true -> 0 < B2R x -> Bsign x = false.
Proof. intros _ H. destruct (Bsign x) eqn:E; trivial. apply sign_le0 in E. lra. Qed.

Lemma mult_ok (x y : fl) : is_finite x = true -> is_finite y = true ->
  op_ok (Bmult mode_NE x y) (B2R x * B2R y).
Proof.
  intros Hx Hy. pose proof (Bmult_correct p e Hp He mode_NE x y) as H.
  cbn [round_mode] in H. fold (rne (B2R x * B2R y)) in H.
  destruct (Rlt_bool_spec (Rabs (rne (B2R x * B2R y))) B) as [L|L].
  - destruct H as (H1 & H2 & _). apply inner_key; trivial. rewrite H2, Hx, Hy. reflexivity.
  - apply (overflow_key _ _ _ H L).
    destruct (Bsign x) eqn:Sx, (Bsign y) eqn:Sy; cbn;
    repeat match goal with
    | H : Bsign _ = true |- _ => apply sign_le0 in H
    | H : Bsign _ = false |- _ => apply sign_ge0 in H
    end; nra.
Qed.

Lemma plus_ok (x y : fl) : is_finite x = true -> is_finite y = true ->
  op_ok (Bplus mode_NE x y) (B2R x + B2R y).
Proof.
  intros Hx Hy. pose proof (Bplus_correct p e Hp He mode_NE x y Hx Hy) as H.
  cbn [round_mode] in H. fold (rne (B2R x + B2R y)) in H.
  destruct (Rlt_bool_spec (Rabs (rne (B2R x + B2R y))) B) as [L|L].
  - destruct H as (H1 & H2 & _). apply inner_key; trivial.
  - destruct H as (H & Hs). apply (overflow_key _ _ _ H L).
    destruct (Bsign x) eqn:Sx; symmetry in Hs.
    + apply sign_le0 in Hs, Sx. lra.
    + apply sign_ge0 in Hs, Sx. lra.
Qed.

Lemma minus_ok (x y : fl) : is_finite x = true -> is_finite y = true ->
  op_ok (Bminus mode_NE x y) (B2R x - B2R y).
Proof.
  intros Hx Hy. pose proof (Bminus_correct p e Hp He mode_NE x y Hx Hy) as H.
  cbn [round_mode] in H. fold (rne (B2R x - B2R y)) in H.
  destruct (Rlt_bool_spec (Rabs (rne (B2R x - B2R y))) B) as [L|L].
  - destruct H as (H1 & H2 & _). apply inner_key; trivial.
  - destruct H as (H & Hs). apply (overflow_key _ _ _ H L).
    destruct (Bsign x) eqn:Sx; symmetry in Hs.
    + apply negb_true_iff in Hs. apply sign_ge0 in Hs. apply sign_le0 in Sx. lra.
    + apply negb_false_iff in Hs. apply sign_le0 in Hs. apply sign_ge0 in Sx. lra.
Qed.

Lemma div_ok (x y : fl) : is_finite x = true -> is_finite y = true -> B2R y <> 0 ->
  op_ok (Bdiv mode_NE x y) (B2R x / B2R y).
Proof.
  intros Hx Hy Hz. pose proof (Bdiv_correct p e Hp He mode_NE x y Hz) as H.
  cbn [round_mode] in H. fold (rne (B2R x / B2R y)) in H.
  destruct (Rlt_bool_spec (Rabs (rne (B2R x / B2R y))) B) as [L|L].
  - destruct H as (H1 & H2 & _). apply inner_key; trivial. rewrite H2, Hx. reflexivity.
  - apply (overflow_key _ _ _ H L).
    assert (HP : B2R y > 0 -> / B2R y > 0) by apply Rinv_0_lt_compat.
    assert (HN : B2R y < 0 -> / B2R y < 0) by apply Rinv_lt_0_compat.
    unfold Rdiv.
    destruct (Bsign x) eqn:Sx, (Bsign y) eqn:Sy; cbn;
    repeat match goal with
    | H : Bsign _ = true |- _ => apply sign_le0 in H
    | H : Bsign _ = false |- _ => apply sign_ge0 in H
    end.
    + assert (/ B2R y < 0) by (apply HN; lra). nra.
    + assert (/ B2R y > 0) by (apply HP; lra). nra.
    + assert (/ B2R y < 0) by (apply HN; lra). nra.
    + assert (/ B2R y > 0) by (apply HP; lra). nra.
Qed.

Lemma normalize_ok (m ex : Z) (s : bool) :
  op_ok (binary_normalize p e Hp He mode_NE m ex s) (F2R (Float radix2 m ex)).
Proof.
  pose proof (binary_normalize_correct p e Hp He mode_NE m ex s) as H.
  cbn zeta in H. cbn [round_mode] in H.
  set (r := F2R (Float radix2 m ex)) in *. fold (rne r) in H.
  destruct (Rlt_bool_spec (Rabs (rne r)) B) as [L|L].
  - destruct H as (H1 & H2 & _). apply inner_key; trivial.
  - apply (overflow_key _ _ _ H L).
    destruct (Rlt_bool_spec r 0); lra.
Qed.

Lemma ofZ_ok (z : Z) : op_ok (ofZ z : fl) (IZR z).
Proof.
  pose proof (normalize_ok z 0 false) as H. unfold F2R in H. cbn in H.
  rewrite Rmult_1_r in H. exact H.
Qed.

Lemma dy_ok (m ex : Z) : op_ok (dy m ex : fl) (IZR m * bpow radix2 ex).
Proof. apply (normalize_ok m ex false). Qed.

Lemma op_ok_finite (z : fl) (r : R) : op_ok z r -> Rabs (rne r) < B ->
  is_finite z = true /\ B2R z = rne r.
Proof.
  intros (H1 & H2) L. rewrite RN_inner in H2 by trivial.
  assert (F : is_finite z = true).
  { apply finite_K; trivial. rewrite H2. apply Rabs_def2 in L. lra. }
  split; trivial. rewrite <- K_finite; trivial.
Qed.

(** an exact result *)
Lemma op_ok_exact (z : fl) (r : R) (w : fl) : op_ok z r -> is_finite w = true -> B2R w = r ->
  is_finite z = true /\ B2R z = r.
Proof.
  intros H Hw <-. apply op_ok_finite in H.
  - rewrite rne_id in H. exact H.
  - rewrite rne_id. apply abs_B2R_lt_emax.
Qed.

Lemma rne_abs_lt (x : R) (w : fl) : Rabs x <= B2R w -> Rabs (rne x) < B.
Proof.
  intros H. apply Rle_lt_trans with (B2R w).
  - apply Rabs_le_inv in H. apply Rabs_le. destruct H as [H1 H2].
    split.
    + rewrite <- (rne_id w), <- rne_opp. now apply rne_le.
    + rewrite <- (rne_id w). now apply rne_le.
  - pose proof (B2R_bounds w). lra.
Qed.

(** rounding errors *)
Lemma rne_err (x : R) : Rabs (rne x - x) <= bpow radix2 (- p) * Rabs x + bpow radix2 (2 - e - p).
Proof.
  destruct (error_N_FLT radix2 (3 - e - p) p Hp (fun x => negb (Z.even x)) x) as (eps & eta & H1 & H2 & _ & H3).
  change (rne x) with (round radix2 (FLT_exp (3 - e - p) p) ZnearestE x). rewrite H3.
  replace (x * (1 + eps) + eta - x) with (x * eps + eta) by ring.
  eapply Rle_trans; [apply Rabs_triang|]. rewrite Rabs_mult.
  assert (E1 : / 2 * bpow radix2 (- p + 1) = bpow radix2 (- p)).
  { rewrite bpow_plus. change (bpow radix2 1) with 2. field. }
  assert (E2 : / 2 * bpow radix2 (3 - e - p) = bpow radix2 (2 - e - p)).
  { replace (3 - e - p)%Z with ((2 - e - p) + 1)%Z by ring. rewrite bpow_plus. change (bpow radix2 1) with 2. field. }
  rewrite E1 in H1. rewrite E2 in H2. pose proof (Rabs_pos x). rewrite Rmult_comm. 
  apply Rplus_le_compat; trivial. now apply Rmult_le_compat_r.
Qed.

Lemma rne_plus_err (x y : fl) : Rabs (rne (B2R x + B2R y) - (B2R x + B2R y)) <= bpow radix2 (- p) * Rabs (B2R x + B2R y).
Proof.
  destruct (FLT_plus_error_N_ex radix2 (3 - e - p) p (fun x => negb (Z.even x)) (B2R x) (B2R y)) as (eps & H1 & H3).
  - apply generic_format_B2R.
  - apply generic_format_B2R.
  - change (rne (B2R x + B2R y)) with (round radix2 (FLT_exp (3 - e - p) p) ZnearestE (B2R x + B2R y)). rewrite H3.
    replace ((B2R x + B2R y) * (1 + eps) - (B2R x + B2R y)) with ((B2R x + B2R y) * eps) by ring.
    rewrite Rabs_mult, Rmult_comm. apply Rmult_le_compat_r; [apply Rabs_pos|].
    assert (E1 : u_ro radix2 p = bpow radix2 (- p)).
    { unfold u_ro. rewrite bpow_plus. change (bpow radix2 1) with 2. field. }
    rewrite E1 in H1. eapply Rle_trans; [exact H1|].
    pose proof (bpow_gt_0 radix2 (- p)).
    apply (Rmult_le_reg_r (1 + bpow radix2 (- p))); [lra|]. unfold Rdiv. rewrite Rmult_assoc, Rinv_l by lra. nra.
Qed.

Lemma rne_minus_err (x y : fl) : Rabs (rne (B2R x - B2R y) - (B2R x - B2R y)) <= bpow radix2 (- p) * Rabs (B2R x - B2R y).
Proof.
  pose proof (rne_plus_err x (Bopp y)) as H. rewrite B2R_Bopp in H. exact H.
Qed.

(** scaling by a power of two is exact unless it overflows *)
Lemma rne_scale (x : fl) (k : Z) : (0 <= k)%Z -> rne (bpow radix2 k * B2R x) = bpow radix2 k * B2R x.
Proof.
  intros H. apply round_generic; auto with typeclass_instances. rewrite Rmult_comm.
  apply (mult_bpow_pos_exact_FLT radix2 (3 - e - p) p); trivial. apply generic_format_B2R.
Qed.

Lemma rne_bpow (k : Z) : (3 - e - p <= k)%Z -> rne (bpow radix2 k) = bpow radix2 k.
Proof.
  intros H. apply round_generic; auto with typeclass_instances. apply generic_format_bpow.
  unfold SpecFloat.fexp, SpecFloat.emin. unfold Prec_gt_0, Prec_lt_emax in *. lia.
Qed.

(** dyadic numbers with at most [p] bits are representable *)
Lemma rne_F2R (m ex : Z) : (Z.abs m < 2 ^ p)%Z -> (3 - e - p <= ex)%Z ->
  rne (IZR m * bpow radix2 ex) = IZR m * bpow radix2 ex.
Proof.
  intros Hm Hex. apply round_generic; auto with typeclass_instances.
  change (IZR m * bpow radix2 ex) with (F2R (Float radix2 m ex)).
  apply generic_format_F2R. intros Hm0. cbn [Fnum Fexp] in *. 
  unfold cexp. rewrite mag_F2R by trivial.
  assert (mag radix2 (IZR m) <= p)%Z.
  { apply mag_le_Zpower; [trivial|]. exact Hm. }
  unfold SpecFloat.fexp, SpecFloat.emin. lia.
Qed.

Lemma rne_IZR (m : Z) : (Z.abs m < 2 ^ p)%Z -> rne (IZR m) = IZR m.
Proof.
  intros H. pose proof (rne_F2R m 0 H) as G. change (bpow radix2 0) with 1 in G. rewrite Rmult_1_r in G.
  apply G. unfold Prec_gt_0, Prec_lt_emax in *. lia.
Qed.

Lemma ofZ_exact (m : Z) : (Z.abs m < 2 ^ p)%Z -> is_finite (ofZ m : fl) = true /\ B2R (ofZ m : fl) = IZR m.
Proof.
  intros H. pose proof (rne_IZR m H) as G. rewrite <- G.
  apply op_ok_finite; [apply ofZ_ok|]. rewrite G, <- abs_IZR.
  apply Rlt_trans with (IZR (2 ^ p)); [now apply IZR_lt|].
  change 2%Z with (radix_val radix2). rewrite IZR_Zpower by (unfold Prec_gt_0 in *; lia).
  apply bpow_lt. exact He.
Qed.

Lemma dy_exact (m ex : Z) : (Z.abs m < 2 ^ p)%Z -> (3 - e - p <= ex)%Z -> (ex <= e - p)%Z ->
  is_finite (dy m ex : fl) = true /\ B2R (dy m ex : fl) = IZR m * bpow radix2 ex.
Proof.
  intros H H1 H2. pose proof (rne_F2R m ex H H1) as G. rewrite <- G.
  apply op_ok_finite; [apply dy_ok|]. rewrite G, Rabs_mult, <- abs_IZR, (Rabs_pos_eq (bpow radix2 ex)) by apply bpow_ge_0.
  apply Rlt_le_trans with (IZR (2 ^ p) * bpow radix2 ex).
  - apply Rmult_lt_compat_r; [apply bpow_gt_0|]. now apply IZR_lt.
  - change 2%Z with (radix_val radix2). rewrite IZR_Zpower by (unfold Prec_gt_0 in *; lia).
    rewrite <- bpow_plus. apply bpow_le. lia.
Qed.

(** an operation whose exact result is bounded by a power of two below the overflow threshold *)
Lemma op_ok_bounded (z : fl) (r : R) (k : Z) : op_ok z r -> Rabs r <= bpow radix2 k -> (3 - e - p <= k < e)%Z ->
  is_finite z = true /\ B2R z = rne r /\ Rabs (B2R z) <= bpow radix2 k.
Proof.
  intros H Hr Hk.
  assert (A : Rabs (rne r) <= bpow radix2 k).
  { apply Rabs_le_inv in Hr. apply Rabs_le. rewrite <- (rne_bpow k) by lia. rewrite <- rne_opp.
    split; apply rne_le; lra. }
  destruct (op_ok_finite _ _ H) as (F & E).
  - apply Rle_lt_trans with (1 := A). now apply bpow_lt.
  - rewrite E. auto.
Qed.

End Key.

Section Conv.
Context {p e p' e' : Z} {Hp : Prec_gt_0 p} {He : Prec_lt_emax p e}
  {Hp' : Prec_gt_0 p'} {He' : Prec_lt_emax p' e'}.

Lemma conv_ok (x : binary_float p e) : is_finite x = true ->
  op_ok (conv x : binary_float p' e') (B2R x).
Proof.
  intros H. destruct x as [s|s| |s m ex Hb]; try discriminate.
  - split; [reflexivity|]. cbn. symmetry. apply RN_0.
  - apply normalize_ok.
Qed.

Lemma conv_nan (x : binary_float p e) : is_nan (conv x : binary_float p' e') = is_nan x.
Proof.
  destruct x as [s|s| |s m ex Hb]; try reflexivity.
  apply (normalize_ok (p:=p') (e:=e')).
Qed.

(** widening is exact *)
Lemma conv_widen (x : binary_float p e) : (p <= p')%Z -> (e <= e')%Z ->
  is_finite x = true ->
  is_finite (conv x : binary_float p' e') = true /\ B2R (conv x : binary_float p' e') = B2R x.
Proof.
  intros Hpp Hee H. 
  assert (R : rne (p:=p') (e:=e') (B2R x) = B2R x).
  { apply round_generic; auto with typeclass_instances.
    pose proof (generic_format_B2R p e x) as Hf.
    revert Hf. apply generic_inclusion_mag.
    intros Hx. unfold SpecFloat.fexp, SpecFloat.emin.
    unfold Prec_gt_0 in *. unfold Prec_lt_emax in *. lia. }
  assert (H1 : Rabs (rne (p:=p') (e:=e') (B2R x)) < bpow radix2 e').
  { rewrite R. apply Rlt_le_trans with (bpow radix2 e).
    - apply abs_B2R_lt_emax.
    - now apply bpow_le. }
  pose proof (op_ok_finite _ _ (conv_ok x H) H1) as [H2 H3].
  split; trivial. now rewrite H3.
Qed.
End Conv.
