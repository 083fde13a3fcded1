From Coq Require Import Reals Lra Lia ZifyBool ZifyNat.
From Flocq Require Import Plus_error Relative.
From Verif Require Import Base Floats FloatLemmas Dictionary DictSpec DictionaryProofs StochasticEncoder EncSpec StochasticEncoderProofs.
Ltac Zify.zify_post_hook ::= Z.div_mod_to_equations.

(** ** Dither mark *)
Lemma of32_2_31 : is_finite (of32 (2 ^ 31)) = true /\ B2R (of32 (2 ^ 31)) = IZR (2 ^ 31).
Proof.
  split; [vm_compute; reflexivity|].
  assert (G : B2SF (of32 (2 ^ 31)) = SpecFloat.S754_finite false 8388608%positive 8%Z) by (vm_compute; reflexivity).
  rewrite <- (SF2R_B2SF 24 128), G. cbn -[bpow]. unfold F2R. cbn -[bpow].
  change (bpow radix2 8) with (IZR 256). rewrite <- mult_IZR. reflexivity.
Qed.

Lemma sub_finite_range (x y z : f32) : is_finite x = true -> is_finite y = true -> is_finite z = true ->
  Bltb x y = true -> Bleb y z = true ->
  is_nan (sub32 y x) = false /\ is_nan (sub32 z x) = false /\ (0 < K (sub32 y x) <= K (sub32 z x))%R.
Proof.
  intros Fx Fy Fz L1 L2.
  destruct (minus_ok y x Fy Fx) as (N1 & K1). destruct (minus_ok z x Fz Fx) as (N2 & K2).
  split; trivial. split; trivial. unfold sub32. rewrite K1, K2.
  apply Bltb_true in L1. apply Bleb_true in L2. destruct L1 as (_ & _ & L1). destruct L2 as (_ & _ & L2).
  rewrite !K_finite in L1, L2 by trivial.
  split.
  - assert (G : (0 < B2R y - B2R x)%R) by lra.
    pose proof (Bminus_correct 24 128 p32 e32 mode_NE y x Fy Fx) as M.
    destruct (Rle_or_lt (rne (p:=24) (e:=128) (B2R y - B2R x)) 0) as [Q|Q].
    + exfalso. 
      assert (Q0 : rne (p:=24) (e:=128) (B2R y - B2R x) = 0%R).
      { apply Rle_antisym; trivial. apply rne_ge0. lra. }
      unfold rne in Q0. revert Q0.
      apply (round_plus_neq_0 radix2 (SpecFloat.fexp 24 128) ZnearestE (B2R y) (- B2R x)).
      * apply generic_format_B2R.
      * apply generic_format_opp, generic_format_B2R.
      * lra.
    + unfold RN. pose proof (B_pos (e:=128)). 
      apply Rlt_le_trans with (Rmin (bpow radix2 128) (rne (p:=24) (e:=128) (B2R y - B2R x))).
      * apply Rmin_glb_lt; trivial.
      * apply Rmax_r.
  - apply RN_le. lra.
Qed.

Local Open Scope R_scope.

Lemma not_finite_pos (x : f32) : is_nan x = false -> 0 < K x -> is_finite x = false -> x = B754_infinity false.
Proof. destruct x as [s|[|]| |s m ex Hb]; try discriminate; trivial. cbn. pose proof (B_pos (e:=128)). lra. Qed.

(** the scaled numerator *)
Lemma scaled_ok (a : f32) : is_finite a = true -> 0 < B2R a ->
  op_ok (mul32 (of32 (2 ^ 31)) a) (IZR (2 ^ 31) * B2R a) /\ 0 < K (mul32 (of32 (2 ^ 31)) a).
Proof.
  intros Fa Ha. destruct of32_2_31 as (F & E).
  pose proof (mult_ok (of32 (2 ^ 31)) a F Fa) as M. rewrite E in M. split; [exact M|].
  destruct M as (_ & M). unfold mul32. rewrite M.
  apply Rlt_le_trans with (RN (p:=24) (e:=128) (B2R a)).
  - rewrite RN_B2R. exact Ha.
  - apply RN_le. assert (1 <= IZR (2 ^ 31)) by (apply IZR_le; lia). nra.
Qed.

Definition mark_key (v lv rv : f32) : R := K (dither_mark v lv rv).

Lemma mark_not_nan (v lv rv : f32) : is_finite v = true -> is_finite lv = true -> is_finite rv = true ->
  Bltb lv v = true -> Bleb v rv = true -> is_finite (sub32 rv lv) = true ->
  is_nan (dither_mark v lv rv) = false /\
  let a := sub32 v lv in let b := sub32 rv lv in let t := mul32 (of32 (2 ^ 31)) a in
  is_finite a = true /\ 0 < B2R a <= B2R b /\ is_nan t = false /\ K t = RN (p:=24) (e:=128) (IZR (2 ^ 31) * B2R a) /\
  mark_key v lv rv = if is_finite t then RN (p:=24) (e:=128) (K t / B2R b) else bpow radix2 128.
Proof.
  intros Fv Fl Fr L1 L2 Fb. cbn zeta.
  destruct (sub_finite_range lv v rv Fl Fv Fr L1 L2) as (Na & Nb & Hab1 & Hab2).
  set (a := sub32 v lv) in *. set (b := sub32 rv lv) in *.
  assert (Fa : is_finite a = true).
  { apply finite_K; trivial. pose proof (proj1 (finite_K b Nb) Fb). lra. }
  rewrite !K_finite in Hab1, Hab2 by trivial. rewrite (K_finite b) in Hab2 by trivial.
  destruct (scaled_ok a Fa Hab1) as ((Nt & Kt) & Ht).
  fold a b. unfold mark_key, dither_mark. fold a b. set (t := mul32 (of32 (2 ^ 31)) a) in *.
  assert (Hb : B2R b <> 0) by lra.
  destruct (is_finite t) eqn:Ft.
  - destruct (div_ok t b Ft Fb Hb) as (Nm & Km). rewrite K_finite in * by trivial.
    repeat split; trivial.
  - assert (Et : t = B754_infinity false) by now apply not_finite_pos.
    destruct b as [s|s| |s m ex Hbb]; try discriminate; [cbn in Hb; lra|].
    assert (s = false) as ->.
    { destruct s; trivial. assert (B2R (B754_finite true m ex Hbb : f32) <= 0) by (apply sign_le0; reflexivity). lra. }
    match goal with |- context [div32 t ?x] => assert (Ed : div32 t x = B754_infinity false) by (rewrite Et; reflexivity) end.
    rewrite Ed. repeat split; trivial.
Qed.

Lemma mark_mono (v v' lv rv : f32) : is_finite v = true -> is_finite v' = true -> is_finite lv = true -> is_finite rv = true ->
  Bltb lv v = true -> Bleb v v' = true -> Bleb v' rv = true -> is_finite (sub32 rv lv) = true ->
  mark_key v lv rv <= mark_key v' lv rv.
Proof.
  intros Fv Fv' Fl Fr L1 L2 L3 Fb.
  destruct (mark_not_nan v lv rv Fv Fl Fr L1 (Bleb_trans _ _ _ L2 L3) Fb) as (_ & Fa & (A1 & A2) & Nt & Kt & ->).
  destruct (mark_not_nan v' lv rv Fv' Fl Fr (Bltb_Bleb_trans _ _ _ L1 L2) L3 Fb) as (_ & Fa' & (A1' & A2') & Nt' & Kt' & ->).
  assert (Haa : B2R (sub32 v lv) <= B2R (sub32 v' lv)).
  { rewrite <- !K_finite by trivial. now apply sub_finite_range. }
  assert (Htt : K (mul32 (of32 (2 ^ 31)) (sub32 v lv)) <= K (mul32 (of32 (2 ^ 31)) (sub32 v' lv))).
  { rewrite Kt, Kt'. apply RN_le. apply Rmult_le_compat_l; trivial. apply IZR_le. lia. }
  set (t := mul32 _ (sub32 v lv)) in *. set (t' := mul32 _ (sub32 v' lv)) in *.
  destruct (is_finite t) eqn:Ft.
  - destruct (is_finite t') eqn:Ft'.
    + apply RN_le. unfold Rdiv. apply Rmult_le_compat_r; trivial.
      apply Rlt_le, Rinv_0_lt_compat. lra.
    + unfold RN. apply Rmax_lub; [pose proof (B_pos (e:=128)); lra|]. apply Rmin_l.
  - destruct (is_finite t') eqn:Ft'; [|lra].
    exfalso. pose proof (proj1 (finite_K t' Nt') Ft').
    assert (is_finite t = true); [|congruence]. apply finite_K; trivial.
    assert (0 <= K t).
    { rewrite Kt. apply RN_ge0. assert (0 <= IZR (2 ^ 31)) by (apply IZR_le; lia). nra. }
    lra.
Qed.

Lemma of32_ok (d : Z) : op_ok (of32 d) (IZR d).
Proof. apply ofZ_ok. Qed.

Lemma of32_mono (d d' : Z) : (d <= d')%Z -> Bleb (of32 d) (of32 d') = true.
Proof.
  intros H. destruct (of32_ok d) as (N1 & K1). destruct (of32_ok d') as (N2 & K2).
  apply Bleb_K; trivial. rewrite K1, K2. apply RN_le. now apply IZR_le.
Qed.

Lemma dither_right_decr v lv rv d d' : (d <= d')%Z -> dither_right v lv rv d' = true -> dither_right v lv rv d = true.
Proof. intros H. unfold dither_right. apply Bleb_Bltb_trans. now apply of32_mono. Qed.

(** an overflowing gap: the left level is always taken *)
Lemma gap_overflow v lv rv d : is_finite v = true -> is_finite lv = true -> is_finite rv = true ->
  Bltb lv v = true -> Bleb v rv = true -> is_finite (sub32 rv lv) = false -> (0 <= d)%Z ->
  dither_right v lv rv d = false.
Proof.
  intros Fv Fl Fr L1 L2 Fb Hd.
  destruct (sub_finite_range lv v rv Fl Fv Fr L1 L2) as (Na & Nb & Hab1 & Hab2).
  unfold dither_right, dither_mark.
  assert (Eb : sub32 rv lv = B754_infinity false) by (apply not_finite_pos; trivial; lra).
  rewrite Eb.
  destruct (of32_ok d) as (Nd & Kd).
  assert (Hd0 : 0 <= K (of32 d)) by (rewrite Kd; apply RN_ge0; now apply IZR_le).
  set (m := div32 _ _).
  assert (Hm : is_nan m = true \/ K m = 0).
  { unfold m, div32. destruct (mul32 (of32 (2 ^ 31)) (sub32 v lv)) as [s|s| |s mm ex Hbb]; cbn; auto. }
  destruct (Bltb (of32 d) m) eqn:E; trivial. apply Bltb_true in E. destruct E as (_ & E1 & E2).
  destruct Hm as [Hm|Hm]; [congruence|lra].
Qed.

Lemma dither_right_incr v v' lv rv d : is_finite v = true -> is_finite v' = true -> is_finite lv = true -> is_finite rv = true ->
  Bltb lv v = true -> Bleb v v' = true -> Bleb v' rv = true -> (0 <= d)%Z ->
  dither_right v lv rv d = true -> dither_right v' lv rv d = true.
Proof.
  intros Fv Fv' Fl Fr L1 L2 L3 Hd H.
  destruct (is_finite (sub32 rv lv)) eqn:Fb.
  - pose proof (mark_mono v v' lv rv Fv Fv' Fl Fr L1 L2 L3 Fb) as M.
    destruct (mark_not_nan v' lv rv Fv' Fl Fr (Bltb_Bleb_trans _ _ _ L1 L2) L3 Fb) as (N' & _).
    unfold dither_right in *. apply Bltb_true in H. destruct H as (N1 & N2 & L).
    apply Bltb_K; trivial. unfold mark_key in M. lra.
  - rewrite gap_overflow in H; trivial; try discriminate. now apply Bleb_trans with v'.
Qed.

(** C10: monotone in the value, antitone in the dither *)
Lemma dither_mono_value e v v' d s s' : well_formed e -> is_finite v = true -> is_finite v' = true ->
  Bleb v v' = true -> (0 <= d)%Z ->
  EncodeWithDithering e v d = Ok s -> EncodeWithDithering e v' d = Ok s' -> (s <= s')%nat.
Proof.
  intros W Fv Fv' L Hd E E'. pose proof (wf_two e W) as H2.
  destruct (dither_cases e W v d Fv) as (r & t & (R1 & R2 & R3) & Et & Ht & C).
  destruct (dither_cases e W v' d Fv') as (r' & t' & (R1' & R2' & R3') & Et' & Ht' & C').
  rewrite E in Et. injection Et as <-. rewrite E' in Et'. injection Et' as <-.
  assert (Hrr : (r <= r')%nat).
  { destruct (Nat.le_gt_cases r r') as [G|G]; trivial.
    destruct (rd_ok (dec e) r') as (x & Hx & _); [lia|].
    pose proof (R2 _ _ G Hx) as Q. pose proof (R3' _ Hx) as Q'.
    rewrite (Bltb_Bleb_trans _ _ _ Q L) in Q'. discriminate. }
  destruct C as [(-> & ->)|[(-> & ->)|(lv & rv & Hr & Hl & Hrv & Fl & Fr & L1 & L2 & ->)]]; [lia| |].
  - destruct C' as [(-> & ->)|[(-> & ->)|(lv' & rv' & Hr' & Hl' & Hrv' & Fl' & Fr' & L1' & L2' & ->)]]; lia.
  - destruct C' as [(-> & ->)|[(-> & ->)|(lv' & rv' & Hr' & Hl' & Hrv' & Fl' & Fr' & L1' & L2' & ->)]].
    + lia.
    + destruct dither_right; lia.
    + destruct (Nat.eq_dec r r') as [<-|Hne].
      * rewrite Hl in Hl'. injection Hl' as <-. rewrite Hrv in Hrv'. injection Hrv' as <-.
        destruct (dither_right v lv rv d) eqn:G; [|destruct (dither_right v' lv rv d); lia].
        rewrite (dither_right_incr v v' lv rv d); trivial.
      * destruct (dither_right v lv rv d), (dither_right v' lv' rv' d); lia.
Qed.

Lemma dither_anti e v d d' s s' : well_formed e -> is_finite v = true -> (d <= d')%Z ->
  EncodeWithDithering e v d = Ok s -> EncodeWithDithering e v d' = Ok s' -> (s' <= s)%nat.
Proof.
  intros W Fv Hd E E'.
  destruct (dither_cases e W v d Fv) as (r & t & Hr & Et & Ht & C).
  destruct (dither_cases e W v d' Fv) as (r' & t' & Hr' & Et' & Ht' & C').
  rewrite E in Et. injection Et as <-. rewrite E' in Et'. injection Et' as <-.
  rewrite <- (lower_bound_unique _ _ _ _ Hr Hr') in C'.
  destruct C as [(-> & ->)|[(-> & ->)|(lv & rv & Hr0 & Hl & Hrv & Fl & Fr & L1 & L2 & ->)]];
  destruct C' as [(? & ->)|[(? & ->)|(lv' & rv' & Hr1 & Hl' & Hrv' & Fl' & Fr' & L1' & L2' & ->)]]; try lia.
  rewrite Hl in Hl'. injection Hl' as <-. rewrite Hrv in Hrv'. injection Hrv' as <-.
  destruct (dither_right v lv rv d') eqn:G; [|destruct (dither_right v lv rv d); lia].
  rewrite (dither_right_decr v lv rv d d' Hd G). lia.
Qed.

(** ** Exact levels (C12) and bias (C11), for gaps without overflow *)
Section Gap.
Variables v lv rv : f32.
Hypothesis Fv : is_finite v = true.
Hypothesis Fl : is_finite lv = true.
Hypothesis Fr : is_finite rv = true.
Hypothesis L1 : Bltb lv v = true.
Hypothesis L2 : Bleb v rv = true.
Hypothesis Hgap : B2R rv - B2R lv <= bpow radix2 96.
Let g := B2R rv - B2R lv.
Let a := sub32 v lv.
Let b := sub32 rv lv.
Notation rn := (rne (p:=24) (e:=128)).

Lemma range_reals : 0 < B2R v - B2R lv <= g.
Proof.
  unfold g. pose proof L1 as H1. pose proof L2 as H2. apply Bltb_true in H1. apply Bleb_true in H2.
  rewrite !K_finite in H1, H2 by trivial. lra.
Qed.

Lemma b_ok : is_finite b = true /\ B2R b = rn g /\ B2R b <= bpow radix2 96.
Proof.
  pose proof range_reals as Hr.
  assert (U : rn g <= bpow radix2 96).
  { rewrite <- (rne_bpow (p:=24) (e:=128) 96) by lia. apply rne_le. exact Hgap. }
  assert (A : Rabs (rn g) < bpow radix2 128).
  { rewrite Rabs_pos_eq by (apply rne_ge0; lra). apply Rle_lt_trans with (1 := U). apply bpow_lt. lia. }
  destruct (op_ok_finite _ _ (minus_ok rv lv Fr Fl) A) as (F & E).
  split; [exact F|]. split; [exact E|]. unfold b, sub32. rewrite E. exact U.
Qed.

Lemma mark_ok : is_finite a = true /\ B2R a = rn (B2R v - B2R lv) /\ 0 < B2R a <= B2R b /\
  is_finite (dither_mark v lv rv) = true /\
  B2R (dither_mark v lv rv) = rn (IZR (2 ^ 31) * B2R a / B2R b).
Proof.
  destruct b_ok as (Fb & Eb & Ub).
  destruct (mark_not_nan v lv rv Fv Fl Fr L1 L2 Fb) as (Nm & Fa & Hab & Nt & Kt & Km).
  fold a b in Fa, Hab, Nt, Kt, Km. unfold mark_key in Km.
  assert (Ea : B2R a = rn (B2R v - B2R lv)).
  { destruct (minus_ok v lv Fv Fl) as (_ & Ka). fold (sub32 v lv) in Ka. fold a in Ka.
    rewrite K_finite in Ka by trivial. rewrite Ka. apply RN_inner.
    pose proof range_reals as Hr.
    rewrite Rabs_pos_eq by (apply rne_ge0; lra).
    apply Rle_lt_trans with (rn g); [apply rne_le; lra|]. rewrite <- Eb. apply Rle_lt_trans with (1 := Ub). apply bpow_lt. lia. }
  assert (P31 : IZR (2 ^ 31) = bpow radix2 31) by (rewrite <- IZR_Zpower by lia; reflexivity).
  assert (Et : RN (p:=24) (e:=128) (IZR (2 ^ 31) * B2R a) = IZR (2 ^ 31) * B2R a).
  { rewrite P31. rewrite RN_inner.
    - apply rne_scale. lia.
    - rewrite rne_scale by lia. rewrite Rabs_pos_eq.
      + apply Rle_lt_trans with (bpow radix2 31 * bpow radix2 96).
        * apply Rmult_le_compat_l; [apply bpow_ge_0|lra].
        * rewrite <- bpow_plus. apply bpow_lt. lia.
      + apply Rmult_le_pos; [apply bpow_ge_0|lra]. }
  rewrite Et in Kt.
  assert (Ft : is_finite (mul32 (of32 (2 ^ 31)) a) = true).
  { apply finite_K; trivial. rewrite Kt, P31. 
    assert (0 <= bpow radix2 31 * B2R a) by (apply Rmult_le_pos; [apply bpow_ge_0|lra]).
    pose proof (B_pos (e:=128)). split; [lra|].
    apply Rle_lt_trans with (bpow radix2 31 * bpow radix2 96).
    + apply Rmult_le_compat_l; [apply bpow_ge_0|lra].
    + rewrite <- bpow_plus. apply bpow_lt. lia. }
  rewrite Ft, Kt in Km.
  assert (Hq : 0 <= IZR (2 ^ 31) * B2R a / B2R b <= IZR (2 ^ 31)).
  { assert (0 < IZR (2 ^ 31)) by (apply IZR_lt; lia).
    assert (0 < / B2R b) by (apply Rinv_0_lt_compat; lra).
    assert (B2R a / B2R b <= 1).
    { apply Rmult_le_reg_r with (B2R b); [lra|]. unfold Rdiv. rewrite Rmult_assoc, Rinv_l by lra. lra. }
    unfold Rdiv in *. rewrite Rmult_assoc. split.
    - apply Rmult_le_pos; [lra|]. apply Rmult_le_pos; lra.
    - rewrite <- (Rmult_1_r (IZR (2 ^ 31))) at 2. apply Rmult_le_compat_l; lra. }
  assert (A : Rabs (rn (IZR (2 ^ 31) * B2R a / B2R b)) < bpow radix2 128).
  { rewrite Rabs_pos_eq by (apply rne_ge0; lra).
    apply Rle_lt_trans with (bpow radix2 31).
    - rewrite <- (rne_bpow (p:=24) (e:=128) 31) by lia. apply rne_le. rewrite <- P31. lra.
    - apply bpow_lt. lia. }
  rewrite RN_inner in Km by exact A.
  assert (Fm : is_finite (dither_mark v lv rv) = true).
  { apply finite_K; trivial. rewrite Km. apply Rabs_def2 in A. lra. }
  repeat split; trivial; try apply Hab. rewrite <- K_finite by trivial. exact Km.
Qed.

Lemma dither_right_iff d : dither_right v lv rv d = true <-> RN (p:=24) (e:=128) (IZR d) < B2R (dither_mark v lv rv).
Proof.
  destruct mark_ok as (_ & _ & _ & Fm & _). destruct (of32_ok d) as (Nd & Kd).
  unfold dither_right. rewrite Bltb_K by (trivial; now apply finite_nan).
  rewrite Kd, (K_finite (dither_mark v lv rv)) by trivial. tauto.
Qed.
End Gap.

Lemma RN_Z (x : f32) (z w : Z) : x = of32 z -> B2SF x = B2SF (of32 w) -> 
  RN (p:=24) (e:=128) (IZR z) = RN (p:=24) (e:=128) (IZR w).
Proof.
  intros -> H. apply B2SF_inj in H. destruct (of32_ok z) as (_ & <-). destruct (of32_ok w) as (_ & <-). now rewrite H.
Qed.

Lemma RN_2_31 : RN (p:=24) (e:=128) (IZR (2 ^ 31)) = IZR (2 ^ 31).
Proof. destruct of32_2_31 as (F & E). rewrite <- E at 1. rewrite RN_B2R. exact E. Qed.

Lemma RN_dither_hi d : (2 ^ 31 - 64 <= d <= 2 ^ 31)%Z -> RN (p:=24) (e:=128) (IZR d) = IZR (2 ^ 31).
Proof.
  intros H. apply Rle_antisym.
  - rewrite <- RN_2_31. apply RN_le, IZR_le. lia.
  - apply Rle_trans with (RN (p:=24) (e:=128) (IZR (2 ^ 31 - 64))).
    + rewrite (RN_Z (of32 (2 ^ 31 - 64)) (2 ^ 31 - 64) (2 ^ 31)) by (trivial; vm_compute; reflexivity).
      rewrite RN_2_31. lra.
    + apply RN_le, IZR_le. lia.
Qed.

Lemma RN_dither_lo d : (d <= 2 ^ 31 - 65)%Z -> RN (p:=24) (e:=128) (IZR d) < IZR (2 ^ 31).
Proof.
  intros H. apply Rle_lt_trans with (RN (p:=24) (e:=128) (IZR (2 ^ 31 - 65))).
  - apply RN_le, IZR_le. lia.
  - destruct (of32_ok (2 ^ 31 - 65)) as (N & <-).
    rewrite <- RN_2_31. destruct (of32_ok (2 ^ 31)) as (N' & <-).
    apply Bltb_K; trivial.
Qed.

Lemma level_dither lv rv d : is_finite lv = true -> is_finite rv = true -> Bltb lv rv = true ->
  B2R rv - B2R lv <= bpow radix2 96 -> (0 <= d < 2 ^ 31)%Z ->
  dither_right rv lv rv d = true <-> (d < 2 ^ 31 - 64)%Z.
Proof.
  intros Fl Fr L G Hd. 
  assert (R : Bleb rv rv = true) by (apply Bleb_refl; now apply finite_nan).
  rewrite (dither_right_iff rv lv rv Fr Fl Fr L R G).
  destruct (mark_ok rv lv rv Fr Fl Fr L R G) as (Fa & Ea & Hab & Fm & Em). rewrite Em.
  replace (IZR (2 ^ 31) * B2R (sub32 rv lv) / B2R (sub32 rv lv)) with (IZR (2 ^ 31)) by (field; lra).
  replace (rne (p:=24) (e:=128) (IZR (2 ^ 31))) with (IZR (2 ^ 31)).
  - destruct (Z_lt_le_dec d (2 ^ 31 - 64)) as [Q|Q].
    + split; [trivial|]. intros _. apply RN_dither_lo. lia.
    + rewrite RN_dither_hi by lia. split; [lra|lia].
  - destruct of32_2_31 as (F & E). rewrite <- E. symmetry. apply rne_id.
Qed.

(** C12 in terms of the encoder *)
Lemma level_preserved e k x : well_formed e -> nth_error (dec e) (S k) = Some x ->
  (forall y, nth_error (dec e) k = Some y -> B2R x - B2R y <= bpow radix2 96) ->
  forall d, (0 <= d < 2 ^ 31)%Z ->
  EncodeWithDithering e x d = Ok (if (d <? 2 ^ 31 - 64)%Z then S k else k).
Proof.
  intros W Hx G d Hd.
  assert (Hk : (S k < length (dec e))%nat) by (apply nth_error_Some; congruence).
  assert (Fx : is_finite x = true).
  { destruct (dec_nth e W (S k) Hk) as (x' & Hx' & F & _). congruence. }
  destruct (dither_cases e W x d Fx) as (r & s & Hr & -> & Hs & C).
  assert (r = S k) as ->.
  { apply (lower_bound_unique (dec e) x); trivial. repeat split; try lia.
    - intros i y Hi Hy. now apply (wf_dec_sorted e W i (S k)).
    - intros y Hy. rewrite Hx in Hy. injection Hy as <-. apply Bltb_irrefl. }
  f_equal.
  destruct C as [(? & ->)|[(? & ->)|(lv & rv & Hr0 & Hl & Hrv & Fl & Fr & L1 & L2 & ->)]]; try lia.
  rewrite Hx in Hrv. injection Hrv as <-. replace (S k - 1)%nat with k in Hl by lia.
  pose proof (level_dither lv x d Fl Fx L1 (G _ Hl) Hd) as I.
  destruct (dither_right x lv x d), (Z.ltb_spec d (2 ^ 31 - 64)); lia.
Qed.

Lemma first_level_preserved e x : well_formed e -> nth_error (dec e) 0 = Some x ->
  forall d, EncodeWithDithering e x d = Ok 0%nat.
Proof.
  intros W Hx d.
  assert (Fx : is_finite x = true).
  { destruct (dec_nth e W 0) as (x' & Hx' & F & _); [pose proof (wf_two e W); lia|]. congruence. }
  destruct (dither_cases e W x d Fx) as (r & s & Hr & -> & Hs & C).
  assert (r = 0%nat) as ->.
  { apply (lower_bound_unique (dec e) x); trivial. repeat split; try lia.
    intros y Hy. rewrite Hx in Hy. injection Hy as <-. apply Bltb_irrefl. }
  f_equal. destruct C as [(? & ->)|[(? & ->)|(lv & rv & Hr0 & _)]]; lia.
Qed.

(** ** Bias (C11) *)
Lemma threshold (P : nat -> bool) (n : nat) :
  (forall i j, (i <= j)%nat -> P j = true -> P i = true) ->
  exists T, (T <= n)%nat /\ forall d, (d < n)%nat -> (P d = true <-> (d < T)%nat).
Proof.
  intros M. induction n as [|n IH].
  - exists 0%nat. split; [lia|]. intros; lia.
  - destruct IH as (T & HT & IH). destruct (P n) eqn:E.
    + exists (S n). split; [lia|]. intros d Hd. split; [lia|]. intros _. apply (M d n); trivial. lia.
    + exists T. split; [lia|]. intros d Hd. destruct (Nat.eq_dec d n) as [->|Hne].
      * rewrite E. split; [discriminate|lia].
      * apply IH. lia.
Qed.

Lemma sum_threshold (f : nat -> R) (T : nat) (x y : R) : forall n, (T <= n)%nat ->
  (forall d, (d < n)%nat -> f d = if (d <? T)%nat then x else y) ->
  sum_upto f n = INR T * x + (INR n - INR T) * y.
Proof.
  induction n as [|n IH]; intros HT Hf.
  - assert (T = 0%nat) by lia. subst. cbn. ring.
  - cbn [sum_upto]. destruct (Nat.eq_dec T (S n)) as [->|Hne].
    + assert (G : forall k, (k <= S n)%nat -> sum_upto f k = INR k * x).
      { induction k as [|k IHk]; intros Hk; [cbn; ring|]. cbn [sum_upto].
        rewrite IHk by lia. rewrite Hf by lia. replace (k <? S n)%nat with true by (symmetry; apply Nat.ltb_lt; lia).
        rewrite S_INR. ring. }
      rewrite G by lia. rewrite Hf by lia. replace (n <? S n)%nat with true by (symmetry; apply Nat.ltb_lt; lia).
      rewrite S_INR. ring.
    + rewrite IH by (try lia; intros; apply Hf; lia). rewrite Hf by lia.
      replace (n <? T)%nat with false by (symmetry; apply Nat.ltb_ge; lia).
      rewrite S_INR. ring.
Qed.

Lemma INR_dithers : INR dithers = IZR (2 ^ 31).
Proof. unfold dithers. rewrite INR_IZR_INZ, Z2Nat.id by lia. reflexivity. Qed.

Lemma RN_int_err d : (0 <= d < 2 ^ 31)%Z -> Rabs (RN (p:=24) (e:=128) (IZR d) - IZR d) <= 64.
Proof.
  intros H.
  assert (B31 : IZR (2 ^ 31) = bpow radix2 31) by (rewrite <- IZR_Zpower by lia; reflexivity).
  assert (D : 0 <= IZR d < bpow radix2 31) by (rewrite <- B31; split; [apply IZR_le|apply IZR_lt]; lia).
  assert (A : Rabs (rne (p:=24) (e:=128) (IZR d)) < bpow radix2 128).
  { rewrite Rabs_pos_eq by (apply rne_ge0; lra). apply Rle_lt_trans with (bpow radix2 31).
    - rewrite <- (rne_bpow (p:=24) (e:=128) 31) by lia. apply rne_le. lra.
    - apply bpow_lt. lia. }
  rewrite RN_inner by exact A. unfold rne.
  eapply Rle_trans; [apply error_le_half_ulp; auto with typeclass_instances|].
  assert (U : ulp radix2 (SpecFloat.fexp 24 128) (IZR d) <= ulp radix2 (SpecFloat.fexp 24 128) (bpow radix2 30)).
  { destruct (Rle_or_lt (IZR d) (bpow radix2 30)) as [Q|Q].
    - apply (ulp_le_pos radix2 (FLT_exp (3 - 128 - 24) 24)); auto with typeclass_instances. lra.
    - rewrite !ulp_neq_0 by (pose proof (bpow_gt_0 radix2 30); lra).
      apply bpow_le. unfold cexp.
      rewrite (mag_unique_pos radix2 (IZR d) 31).
      + rewrite mag_bpow. reflexivity.
      + split; [apply Rlt_le, Q|apply D]. }
  rewrite ulp_bpow in U. change (SpecFloat.fexp 24 128 (30 + 1)) with 7%Z in U.
  change (bpow radix2 7) with 128 in U. lra.
Qed.

Section Bias.
Variables v lv rv : f32.
Hypothesis Fv : is_finite v = true.
Hypothesis Fl : is_finite lv = true.
Hypothesis Fr : is_finite rv = true.
Hypothesis L1 : Bltb lv v = true.
Hypothesis L2 : Bleb v rv = true.
Hypothesis Hgap : B2R rv - B2R lv <= bpow radix2 96.
Let g := B2R rv - B2R lv.
Let q := (B2R v - B2R lv) / g.

Lemma mark_err : Rabs (B2R (dither_mark v lv rv) - IZR (2 ^ 31) * q) <= 400.
Proof.
  destruct (mark_ok v lv rv Fv Fl Fr L1 L2 Hgap) as (Fa & Ea & Hab & Fm & Em).
  destruct (b_ok v lv rv Fv Fl Fr L1 L2 Hgap) as (Fb & Eb & Ub).
  pose proof (range_reals v lv rv Fv Fl Fr L1 L2) as Hr. fold g in Hr, Eb.
  pose proof (rne_minus_err v lv) as Ra. pose proof (rne_minus_err rv lv) as Rb.
  rewrite <- Ea in Ra. unfold g in Eb. rewrite <- Eb in Rb. fold g in Rb.
  set (a := B2R (sub32 v lv)) in *. set (b := B2R (sub32 rv lv)) in *. set (x := B2R v - B2R lv) in *.
  rewrite (Rabs_pos_eq x) in Ra by lra. rewrite (Rabs_pos_eq g) in Rb by lra.
  set (u := bpow radix2 (- (24))) in *.
  assert (Hu : u = / 16777216) by reflexivity.
  pose proof (rne_err (p:=24) (e:=128) (IZR (2 ^ 31) * a / b)) as Rm.
  rewrite <- Em in Rm. fold u in Rm. set (m := B2R (dither_mark v lv rv)) in *.
  assert (Heta : bpow radix2 (2 - 128 - 24) <= 1).
  { change 1 with (bpow radix2 0). apply bpow_le. lia. }
  set (eta := bpow radix2 (2 - 128 - 24)) in *.
  assert (Hm31 : IZR (2 ^ 31) = 2147483648) by reflexivity. rewrite Hm31 in *.
  apply Rabs_le_inv in Ra, Rb.
  assert (Hb0 : 0 < b) by lra.
  assert (Hq : 0 < q <= 1).
  { unfold q. fold x. split.
    - apply Rdiv_lt_0_compat; lra.
    - apply Rmult_le_reg_r with g; [lra|]. unfold Rdiv. rewrite Rmult_assoc, Rinv_l by lra. lra. }
  assert (Hx : x = q * g) by (unfold q; fold x; field; lra).
  set (w := a / b). assert (Hw : a = w * b) by (unfold w; field; lra).
  assert (Ew : Rabs (w - q) <= (2001/1000) * u * q).
  { apply Rabs_le. 
    assert (Hlo : (q - (2001/1000) * u * q) * b <= w * b).
    { rewrite <- Hw. assert (b <= g * (1 + u)) by lra. assert (x * (1 - u) <= a) by lra.
      assert (0 <= q - (2001/1000) * u * q) by (rewrite Hu; nra).
      apply Rle_trans with ((q - (2001/1000) * u * q) * (g * (1 + u))).
      - apply Rmult_le_compat_l; trivial.
      - apply Rle_trans with (x * (1 - u)); trivial. rewrite Hx.
        assert (0 < q * g) by (apply Rmult_lt_0_compat; lra).
        replace ((q - (2001/1000) * u * q) * (g * (1 + u))) with (q * g * ((1 - (2001/1000) * u) * (1 + u))) by ring.
        apply Rmult_le_compat_l; [lra|]. rewrite Hu. lra. }
    assert (Hhi : w * b <= (q + (2001/1000) * u * q) * b).
    { rewrite <- Hw. assert (g * (1 - u) <= b) by lra. assert (a <= x * (1 + u)) by lra.
      assert (0 <= q + (2001/1000) * u * q) by (rewrite Hu; nra).
      apply Rle_trans with ((q + (2001/1000) * u * q) * (g * (1 - u))).
      - apply Rle_trans with (x * (1 + u)); trivial. rewrite Hx.
        assert (0 < q * g) by (apply Rmult_lt_0_compat; lra).
        replace ((q + (2001/1000) * u * q) * (g * (1 - u))) with (q * g * ((1 + (2001/1000) * u) * (1 - u))) by ring.
        apply Rmult_le_compat_l; [lra|]. rewrite Hu. lra.
      - apply Rmult_le_compat_l; trivial. }
    apply Rmult_le_reg_r in Hlo; trivial. apply Rmult_le_reg_r in Hhi; trivial. lra. }
  replace (2147483648 * a / b) with (2147483648 * w) in Rm by (unfold w; field; lra).
  apply Rabs_le_inv in Ew.
  assert (W1 : 0 <= w <= 1).
  { unfold w. split.
    - apply Rlt_le, Rdiv_lt_0_compat; lra.
    - apply Rmult_le_reg_r with b; [lra|]. unfold Rdiv. rewrite Rmult_assoc, Rinv_l by lra. lra. }
  rewrite (Rabs_pos_eq (2147483648 * w)) in Rm by lra. apply Rabs_le_inv in Rm.
  assert (U1 : 2147483648 * (2001 / 1000 * u * q) <= 257) by (rewrite Hu; lra).
  assert (U2 : u * (2147483648 * w) <= 128) by (rewrite Hu; lra).
  apply Rabs_le. lra.
Qed.

Lemma bias_threshold : exists T : nat, (T <= dithers)%nat /\
  (forall d, (d < dithers)%nat -> (dither_right v lv rv (Z.of_nat d) = true <-> (d < T)%nat)) /\
  Rabs (INR T - IZR (2 ^ 31) * q) <= 512.
Proof.
  destruct (threshold (fun d => dither_right v lv rv (Z.of_nat d)) dithers) as (T & HT & HP).
  { intros i j Hij. apply dither_right_decr. lia. }
  exists T. split; trivial. split; trivial.
  pose proof mark_err as M. apply Rabs_le_inv in M.
  assert (Hd31 : Z.of_nat dithers = (2 ^ 31)%Z) by (unfold dithers; rewrite Z2Nat.id; lia).
  pose proof (dither_right_iff v lv rv Fv Fl Fr L1 L2 Hgap) as I.
  assert (Hq : 0 < q <= 1).
  { pose proof (range_reals v lv rv Fv Fl Fr L1 L2) as Hr. fold g in Hr. unfold q. split.
    - apply Rdiv_lt_0_compat; lra.
    - apply Rmult_le_reg_r with g; [lra|]. unfold Rdiv. rewrite Rmult_assoc, Rinv_l by lra. lra. }
  assert (Hm31 : IZR (2 ^ 31) = 2147483648) by reflexivity. rewrite Hm31 in *.
  apply Rabs_le. split.
  - (* lower bound on T *)
    destruct (Nat.eq_dec T dithers) as [->|Hne].
    + rewrite INR_dithers. rewrite Hm31. lra.
    + assert (HN : ~ dither_right v lv rv (Z.of_nat T) = true) by (rewrite HP by lia; lia).
      rewrite I in HN. apply Rnot_lt_le in HN.
      pose proof (RN_int_err (Z.of_nat T) ltac:(lia)) as E. apply Rabs_le_inv in E.
      rewrite <- INR_IZR_INZ in *. lra.
  - destruct T as [|T']; [cbn; lra|].
    assert (HN : dither_right v lv rv (Z.of_nat T') = true) by (rewrite HP by lia; lia).
    rewrite I in HN.
    pose proof (RN_int_err (Z.of_nat T') ltac:(lia)) as E. apply Rabs_le_inv in E.
    rewrite <- INR_IZR_INZ in *. rewrite S_INR. lra.
Qed.
End Bias.

(** C11 in terms of the encoder *)
Lemma dither_unbiased e k lv rv v : well_formed e ->
  nth_error (dec e) k = Some lv -> nth_error (dec e) (S k) = Some rv ->
  is_finite v = true -> Bltb lv v = true -> Bleb v rv = true ->
  B2R rv - B2R lv <= bpow radix2 96 ->
  Rabs (mean (dithered e v) dithers - B2R v) <= bpow radix2 (-22) * (B2R rv - B2R lv).
Proof.
  intros W Hl Hr Fv L1 L2 G.
  assert (Hk : (S k < length (dec e))%nat) by (apply nth_error_Some; congruence).
  destruct (dec_nth e W k ltac:(lia)) as (lv' & Hl' & Fl & _). rewrite Hl in Hl'. injection Hl' as <-.
  destruct (dec_nth e W (S k) Hk) as (rv' & Hr' & Fr & _). rewrite Hr in Hr'. injection Hr' as <-.
  destruct (bias_threshold v lv rv Fv Fl Fr L1 L2 G) as (T & HT & HP & HB).
  pose proof (range_reals v lv rv Fv Fl Fr L1 L2) as Hrg.
  assert (Hf : forall d, (d < dithers)%nat -> dithered e v d = if (d <? T)%nat then B2R rv else B2R lv).
  { intros d Hd. unfold dithered.
    destruct (dither_cases e W v (Z.of_nat d) Fv) as (r & s & Hlb & -> & Hs & C).
    assert (r = S k) as ->.
    { apply (lower_bound_unique (dec e) v); trivial. repeat split; try lia.
      - intros i y Hi Hy. apply Bleb_Bltb_trans with lv; trivial. now apply (dec_sorted e W i k); try lia.
      - intros y Hy. rewrite Hr in Hy. injection Hy as <-.
        destruct (Bltb rv v) eqn:E; trivial. apply (Bleb_Bltb_trans v rv v) in E; trivial. rewrite Bltb_irrefl in E. discriminate. }
    destruct C as [(? & ->)|[(? & ->)|(lv' & rv' & Hr0 & Hl' & Hrv & _ & _ & _ & _ & ->)]]; try lia.
    replace (S k - 1)%nat with k in * by lia.
    rewrite Hl in Hl'. injection Hl' as <-. rewrite Hr in Hrv. injection Hrv as <-.
    cbn [bind]. specialize (HP d Hd).
    destruct (dither_right v lv rv (Z.of_nat d)), (Nat.ltb_spec d T); try lia;
    [rewrite (decode_nth e (S k) rv Hr)|rewrite (decode_nth e k lv Hl)]; reflexivity. }
  unfold mean. rewrite (sum_threshold _ T (B2R rv) (B2R lv) dithers HT Hf).
  rewrite INR_dithers. set (g := B2R rv - B2R lv) in *.
  assert (Hm31 : IZR (2 ^ 31) = 2147483648) by reflexivity. rewrite Hm31 in *.
  replace ((INR T * B2R rv + (2147483648 - INR T) * B2R lv) / 2147483648 - B2R v)
    with ((INR T - 2147483648 * ((B2R v - B2R lv) / g)) * (g / 2147483648)).
  - rewrite Rabs_mult, (Rabs_pos_eq (g / 2147483648)) by (apply Rmult_le_pos; lra).
    apply Rle_trans with (512 * (g / 2147483648)).
    + apply Rmult_le_compat_r; trivial. apply Rmult_le_pos; lra.
    + change (bpow radix2 (-22)) with (/ 4194304). lra.
  - unfold g. field. unfold g in Hrg. lra.
Qed.
