(** Fitting to the maximum: what one round does, termination.  Proof file. *)
From Coq Require Import Reals Lra Psatz.
From Flocq Require Import Core.
From Verif Require Import Base BaseLemmas Floats FloatLemmas WeightProofs WeightMoreProofs TimeBlockBuffer StochasticEncoder EncSpec
  TimeBlockEncoders TbeSpec TbeLoops TbeReal AfForm.
Local Open Scope R_scope.

Lemma op_value (z : f64) r : op_ok z r -> is_finite z = true -> B2R z = rn64 r.
Proof.
  intros (N & E) F. rewrite K_finite in E by trivial. pose proof (B2R_bounds z) as Bz. rewrite E in *. unfold RN in *.
  unfold Rmax, Rmin in *. repeat destruct Rle_dec; lra.
Qed.

Lemma rn64_err x : Rabs (rn64 x - x) <= bpow radix2 (-53) * Rabs x + bpow radix2 (-1075).
Proof. exact (rne_err (p := 53) (e := 1024) x). Qed.

Lemma p53 : bpow radix2 (-53) = / 9007199254740992.
Proof. cbn. lra. Qed.
Lemma p50 : bpow radix2 (-50) = / 1125899906842624.
Proof. cbn. lra. Qed.
Lemma p1075 : 0 < bpow radix2 (-1075) <= bpow radix2 (-900).
Proof. split; [apply bpow_gt_0|apply bpow_le; lia]. Qed.
Lemma p900 : bpow radix2 (-900) * bpow radix2 800 = bpow radix2 (-100).
Proof. now rewrite <- bpow_plus. Qed.
Lemma p100 : bpow radix2 (-100) <= / 1000000000000000000000000000000.
Proof.
  change (-100)%Z with (-(100))%Z. rewrite bpow_opp. apply Rinv_le; [lra|]. change (bpow radix2 100) with (IZR (2 ^ 100)). apply IZR_le. lia.
Qed.

(** relative error when not tiny *)
Lemma rn64_rel x : bpow radix2 (-800) <= Rabs x -> Rabs (rn64 x - x) <= / 4503599627370496 * Rabs x.
Proof.
  intros H. pose proof (rn64_err x) as E. rewrite p53 in E. pose proof p1075. pose proof p100.
  assert (bpow radix2 (-900) = bpow radix2 (-100) * bpow radix2 (-800)) by (rewrite <- bpow_plus; f_equal). pose proof (bpow_gt_0 radix2 (-800)). nra.
Qed.

Lemma rn64_big q : is_finite (q : f64) = true -> bpow radix2 60 <= B2R q -> rn64 (B2R q + 1) <= B2R q.
Proof.
  intros F H. assert (P : 0 <= B2R q) by (pose proof (bpow_ge_0 radix2 60); lra).
  unfold rne. apply round_N_le_midp; [typeclasses eauto|apply generic_format_B2R|].
  rewrite succ_eq_pos by trivial. pose proof (ulp_FLT_gt radix2 (-1074) 53 (B2R q)) as U. rewrite Rabs_pos_eq in U by trivial.
  change (SpecFloat.fexp 53 1024) with (FLT_exp (-1074) 53). change (- (53))%Z with (-53)%Z in U. assert (128 <= B2R q * bpow radix2 (-53)); [|lra].
  change 128 with (bpow radix2 7). change 7%Z with (60 + -53)%Z. rewrite bpow_plus. apply Rmult_le_compat_r; [apply bpow_ge_0|trivial].
Qed.

(** ** Largest component *)
Definition cnt (v : cd) : Prop := is_finite (local_max v) = true.
Definition val (v : cd) : R := Rmax (Rabs (B2R (fst v))) (Rabs (B2R (snd v))).

Lemma std_max_fin (a b : f64) : is_finite a = true -> is_finite b = true -> is_finite (std_max a b) = true /\ B2R (std_max a b) = Rmax (B2R a) (B2R b).
Proof.
  intros Fa Fb. unfold std_max. destruct (Bltb a b) eqn:E.
  - apply Bltb_true in E. destruct E as (_ & _ & E). rewrite !K_finite in E by trivial. split; trivial. rewrite Rmax_right; lra.
  - apply Bltb_false in E; try now apply finite_nan. rewrite !K_finite in E by trivial. split; trivial. rewrite Rmax_left; lra.
Qed.
Lemma std_min_fin (a b : f64) : is_finite a = true -> is_finite b = true -> is_finite (std_min a b) = true /\ B2R (std_min a b) = Rmin (B2R a) (B2R b).
Proof.
  intros Fa Fb. unfold std_min. destruct (Bltb b a) eqn:E.
  - apply Bltb_true in E. destruct E as (_ & _ & E). rewrite !K_finite in E by trivial. split; trivial. rewrite Rmin_right; lra.
  - apply Bltb_false in E; try now apply finite_nan. rewrite !K_finite in E by trivial. split; trivial. rewrite Rmin_left; lra.
Qed.

Lemma local_max_fin v : is_finite (fst v) = true -> is_finite (snd v) = true \/ is_nan (snd v) = true ->
  is_finite (local_max v) = true /\ B2R (local_max v) = val v.
Proof.
  destruct v as [re im]. unfold local_max, val. cbn [fst snd]. intros Fr [Fi|Ni].
  - destruct (std_max_fin re im Fr Fi) as (F1 & E1). destruct (std_min_fin re im Fr Fi) as (F2 & E2).
    destruct (std_max_fin (std_max re im) (Bopp (std_min re im))) as (F3 & E3); [trivial|now rewrite is_finite_Bopp|].
    split; trivial. rewrite E3, B2R_Bopp, E1, E2. unfold Rmax, Rmin, Rabs. repeat (destruct Rle_dec || destruct Rcase_abs); lra.
  - assert (M1 : std_max re im = re) by (unfold std_max; now rewrite Bltb_nan_r). assert (M2 : std_min re im = re) by (unfold std_min; now rewrite Bltb_nan_l).
    rewrite M1, M2.
    destruct (std_max_fin re (Bopp re)) as (F3 & E3); [trivial|now rewrite is_finite_Bopp|].
    split; trivial. rewrite E3, B2R_Bopp. replace (B2R im) with 0 by now destruct im.
    unfold Rmax, Rabs. repeat (destruct Rle_dec || destruct Rcase_abs); lra.
Qed.

Lemma cnt_iff v : cnt v <-> is_finite (fst v) = true /\ (is_finite (snd v) = true \/ is_nan (snd v) = true).
Proof.
  split; [|intros (A & B); now apply local_max_fin]. unfold cnt, local_max. destruct v as [re im]. cbn [fst snd]. intros H.
  destruct re as [s|s| |s m ex Hb]; [| | |].
  - split; trivial. destruct im as [s'|s'| |s' m' ex' Hb']; auto. exfalso. revert H. destruct s, s'; cbn; discriminate.
  - exfalso. revert H. destruct im as [s'|s'| |s' m' ex' Hb'], s; try destruct s'; cbn; discriminate.
  - exfalso. revert H. destruct im as [s'|s'| |s' m' ex' Hb']; try destruct s'; cbn; discriminate.
  - split; trivial. destruct im as [s'|s'| |s' m' ex' Hb']; auto. exfalso. revert H. destruct s, s'; cbn; discriminate.
Qed.

Lemma cnt_val v : cnt v -> B2R (local_max v) = val v.
Proof. intros H. apply cnt_iff in H. now apply local_max_fin. Qed.
Lemma val_pos v : 0 <= val v.
Proof. unfold val. eapply Rle_trans; [apply Rabs_pos|apply Rmax_l]. Qed.

Lemma mul_finite_inv (x y : f64) : is_finite (mul64 x y) = true -> is_finite x = true /\ is_finite y = true.
Proof. destruct x, y; cbn; auto; discriminate. Qed.
Lemma mul_nan_l (x y : f64) : is_nan x = true -> is_nan (mul64 x y) = true.
Proof. destruct x; try discriminate. reflexivity. Qed.
Lemma mul_inf_inv (x y : f64) : is_finite y = true -> 0 < B2R y -> is_finite (mul64 x y) = true \/ is_nan (mul64 x y) = true -> is_finite x = true \/ is_nan x = true.
Proof.
  intros F P H. destruct x as [s|s| |s m ex Hb]; auto. exfalso. destruct y as [s'|s'| |s' m' ex' Hb']; try discriminate; [cbn in P; lra|].
  cbn in H. destruct H; discriminate.
Qed.

(** multiplying by a factor of at least one *)
Lemma cnt_mul_inv v f : is_finite f = true -> 0 < B2R f -> cnt (cmul v f) -> cnt v.
Proof.
  intros F P H. apply cnt_iff in H. apply cnt_iff. destruct v as [re im]. cbn [cmul fst snd] in *. destruct H as (A & B).
  apply mul_finite_inv in A. split; [apply A|]. now apply (mul_inf_inv im f).
Qed.

Lemma rn64_abs x : Rabs (rn64 x) = rn64 (Rabs x).
Proof.
  destruct (Rle_or_lt 0 x) as [P|P].
  - rewrite !Rabs_pos_eq; trivial. now apply rne_ge0.
  - rewrite (Rabs_left x) by trivial. rewrite rne_opp, Rabs_left1; trivial. apply rne_le0. lra.
Qed.

Lemma part_mul (x f : f64) B : is_finite x = true -> is_finite f = true -> 0 < B2R f -> Rabs (B2R x) * B2R f <= B -> rn64 B < bpow radix2 1024 ->
  is_finite (mul64 x f) = true /\ Rabs (B2R (mul64 x f)) = rn64 (Rabs (B2R x) * B2R f).
Proof.
  intros Fx Ff Pf H HB. assert (E : Rabs (B2R x * B2R f) = Rabs (B2R x) * B2R f) by (rewrite Rabs_mult, (Rabs_pos_eq (B2R f)); lra).
  destruct (op_ok_finite (mul64 x f) (B2R x * B2R f)) as (A & C).
  - now apply mult_ok.
  - rewrite rn64_abs, E. eapply Rle_lt_trans; [apply rne_le; exact H|trivial].
  - split; trivial. now rewrite C, rn64_abs, E.
Qed.

Lemma rmax_rn a b : Rmax (rn64 a) (rn64 b) = rn64 (Rmax a b).
Proof.
  destruct (Rle_or_lt a b) as [H|H].
  - rewrite (Rmax_right a b) by trivial. apply Rmax_right. now apply rne_le.
  - rewrite (Rmax_left a b) by lra. apply Rmax_left. apply rne_le. lra.
Qed.

Lemma cnt_mul v f : is_finite f = true -> 0 < B2R f -> cnt v -> rn64 (val v * B2R f) < bpow radix2 1024 ->
  cnt (cmul v f) /\ val (cmul v f) = rn64 (val v * B2R f).
Proof.
  intros Ff Pf C H. apply cnt_iff in C. destruct C as (Fr & Fi). destruct v as [re im]. unfold val in *. cbn [cmul fst snd] in *.
  assert (H1 : Rabs (B2R re) * B2R f <= Rmax (Rabs (B2R re)) (Rabs (B2R im)) * B2R f) by (apply Rmult_le_compat_r; [lra|apply Rmax_l]).
  assert (H2 : Rabs (B2R im) * B2R f <= Rmax (Rabs (B2R re)) (Rabs (B2R im)) * B2R f) by (apply Rmult_le_compat_r; [lra|apply Rmax_r]).
  destruct (part_mul re f _ Fr Ff Pf H1 H) as (A & B). rewrite B.
  assert (Em : Rmax (Rabs (B2R re)) (Rabs (B2R im)) * B2R f = Rmax (Rabs (B2R re) * B2R f) (Rabs (B2R im) * B2R f)).
  { unfold Rmax. destruct Rle_dec, Rle_dec; trivial; nra. }
  rewrite Em, <- rmax_rn. destruct Fi as [Fi|Ni].
  - destruct (part_mul im f _ Fi Ff Pf H2 H) as (A' & B'). rewrite B'. split; trivial. apply cnt_iff. cbn. auto.
  - assert (Nm := mul_nan_l im f Ni). assert (Z : forall z : f64, is_nan z = true -> B2R z = 0) by (intros z; now destruct z).
    split; [apply cnt_iff; cbn; auto|]. rewrite (Z _ Nm), (Z _ Ni). now rewrite Rabs_R0, Rmult_0_l, rne_0.
Qed.

(** ** Factors *)
Section Factors.
Context (L m : f64) (FL : is_finite L = true) (PL : 0 < B2R L) (Fm : is_finite m = true) (Pm : 0 < B2R m).

Definition fits (f : f64) : Prop := is_finite f = true /\ 1 <= B2R f /\ Rabs (B2R f * B2R m - B2R L) <= bpow radix2 (-50) * B2R L.

Lemma half_big : bpow radix2 (-800) <= / 2.
Proof. change (/ 2) with (bpow radix2 (-1)). apply bpow_le. lia. Qed.

Lemma quot_half (q : f64) : op_ok q (B2R L / B2R m) -> is_finite q = true -> / 2 < B2R q -> / 2 <= B2R L / B2R m.
Proof.
  intros O F H. destruct (Rle_or_lt (/ 2) (B2R L / B2R m)) as [G|G]; trivial. exfalso. rewrite (op_value q _ O F) in H.
  assert (rn64 (B2R L / B2R m) <= rn64 (bpow radix2 (-1))) by (apply rne_le; cbn; lra). rewrite rne_bpow in H0 by lia. cbn in H0. lra.
Qed.

Lemma quot_err f : Rabs (f - B2R L / B2R m) <= bpow radix2 (-50) * (B2R L / B2R m) -> Rabs (f * B2R m - B2R L) <= bpow radix2 (-50) * B2R L.
Proof.
  intros H. replace (f * B2R m - B2R L) with ((f - B2R L / B2R m) * B2R m) by (field; lra). rewrite Rabs_mult, (Rabs_pos_eq (B2R m)) by lra.
  replace (bpow radix2 (-50) * B2R L) with (bpow radix2 (-50) * (B2R L / B2R m) * B2R m) by (field; lra). apply Rmult_le_compat_r; lra.
Qed.

Lemma div_fits : is_finite (div64 L m) = true -> Bltb (div64 L m) one64 = false -> fits (div64 L m).
Proof.
  intros F H. destruct one64_val as (F1 & E1). apply Bltb_false in H; try (apply finite_nan; trivial). rewrite !K_finite in H by trivial. rewrite E1 in H.
  pose proof (div_ok L m FL Fm ltac:(lra)) as O. fold (div64 L m) in O. pose proof (quot_half _ O F ltac:(lra)) as Hq. split; trivial. split; trivial.
  apply quot_err. rewrite (op_value _ _ O F). pose proof half_big. pose proof (rn64_rel (B2R L / B2R m)) as E. rewrite Rabs_pos_eq in E by lra.
  rewrite p50. specialize (E ltac:(lra)). lra.
Qed.

Lemma gain_fits : let g := sub64 (div64 L m) one64 in is_finite g = true -> Bltb (add64 g one64) one64 = false -> fits (add64 g one64).
Proof.
  intros g Fg H. destruct one64_val as (F1 & E1).
  assert (Fq : is_finite (div64 L m) = true). { unfold g, sub64, Bminus in Fg. destruct (div64 L m); trivial; cbn in Fg; discriminate. }
  pose proof (div_ok L m FL Fm ltac:(lra)) as Oq. fold (div64 L m) in Oq.
  pose proof (minus_ok (div64 L m) one64 Fq F1) as Og. change (op_ok g (B2R (div64 L m) - B2R one64)) in Og. rewrite E1 in Og.
  pose proof (plus_ok g one64 Fg F1) as Oc. change (op_ok (add64 g one64) (B2R g + B2R one64)) in Oc. rewrite E1 in Oc.
  set (q := div64 L m) in *. pose proof (op_value _ _ Og Fg) as Eg. pose proof (op_value _ _ Oq Fq) as Eq.
  assert (Gq : B2R g <= B2R q). { rewrite Eg. rewrite <- (rne_id q) at 2. apply rne_le. lra. }
  assert (Fc : is_finite (add64 g one64) = true).
  { destruct (Rle_or_lt (bpow radix2 60) (B2R q)) as [Q|Q].
    - apply (op_ok_finite _ _ Oc). pose proof (rn64_big q Fq Q). assert (R1 : rn64 (B2R g + 1) <= rn64 (B2R q + 1)) by (apply rne_le; lra).
      pose proof (B2R_bounds q). apply Rabs_lt. split; [|lra].
      assert (0 <= rn64 (B2R g + 1)); [|pose proof (bpow_gt_0 radix2 1024); lra]. apply rne_ge0. assert (0 <= B2R g); [|lra]. rewrite Eg. apply rne_ge0.
      assert (1 <= bpow radix2 60) by (change 1 with (bpow radix2 0); apply bpow_le; lia). lra.
    - assert (B60 : bpow radix2 61 = 2 * bpow radix2 60) by (change 61%Z with (1 + 60)%Z; rewrite bpow_plus; cbn; lra).
      assert (1 <= bpow radix2 60) by (change 1 with (bpow radix2 0); apply bpow_le; lia).
      apply (op_ok_bounded _ (B2R g + 1) 61 Oc); [|lia]. apply Rabs_le. split; [|lra].
      assert (-1 <= B2R g); [|lra]. rewrite Eg. replace (-1) with (rn64 (- bpow radix2 0)); [|rewrite rne_opp, rne_bpow by lia; reflexivity].
      apply rne_le. cbn. assert (0 <= B2R q); [|lra]. rewrite Eq. apply rne_ge0. apply Rlt_le. now apply Rdiv_lt_0_compat. }
  apply Bltb_false in H; try (apply finite_nan; trivial). rewrite !K_finite in H by trivial. rewrite E1 in H. split; trivial. split; trivial.
  pose proof (op_value _ _ Oc Fc) as Ec.
  assert (Hq2 : / 2 < B2R q).
  { destruct (Rlt_or_le (/ 2) (B2R q)) as [G|G]; trivial. exfalso.
    assert (B2R g <= - / 2). { rewrite Eg. replace (- / 2) with (rn64 (- bpow radix2 (-1))); [|rewrite rne_opp, rne_bpow by lia; cbn; lra]. apply rne_le. cbn. lra. }
    assert (rn64 (B2R g + 1) <= rn64 (bpow radix2 (-1))) by (apply rne_le; cbn; lra). rewrite rne_bpow in H1 by lia. cbn in H1. lra. }
  pose proof (quot_half _ Oq Fq Hq2) as Hq. apply quot_err. set (Q := B2R L / B2R m) in *.
  pose proof half_big. pose proof (rn64_rel Q) as E. rewrite Rabs_pos_eq in E by lra. rewrite <- Eq in E. specialize (E ltac:(lra)).
  pose proof (rne_minus_err q one64) as D1. rewrite E1 in D1. change (rne (B2R q - 1)) with (rn64 (B2R q - 1)) in D1. rewrite <- Eg in D1.
  pose proof (rne_plus_err g one64) as D2. rewrite E1 in D2. change (rne (B2R g + 1)) with (rn64 (B2R g + 1)) in D2. rewrite <- Ec in D2.
  assert (A1 : Rabs (B2R q - 1) <= B2R q) by (apply Rabs_le; lra).
  change (- (53))%Z with (-53)%Z in *. rewrite p53 in D1, D2. rewrite p50.
  apply Rabs_le_inv in E. assert (D1' : Rabs (B2R g - (B2R q - 1)) <= / 9007199254740992 * B2R q) by nra. apply Rabs_le_inv in D1'.
  assert (A2 : Rabs (B2R g + 1) <= 2 * B2R q) by (apply Rabs_le; lra).
  assert (D2' : Rabs (B2R (add64 g one64) - (B2R g + 1)) <= / 9007199254740992 * (2 * B2R q)) by nra. apply Rabs_le_inv in D2'.
  apply Rabs_le. lra.
Qed.

(** what a fitting factor does to the largest value *)
Lemma fits_max f : bpow radix2 (-150) <= B2R L <= bpow radix2 128 -> fits f ->
  B2R L * (1 - bpow radix2 (-48)) <= rn64 (B2R m * B2R f) <= B2R L * (1 + bpow radix2 (-48)) /\ rn64 (B2R m * B2R f) < bpow radix2 1024.
Proof.
  intros RL (Ff & Pf & E). rewrite Rmult_comm in E. apply Rabs_le_inv in E. rewrite p50 in E.
  assert (P48 : bpow radix2 (-48) = / 281474976710656) by (cbn; lra). rewrite P48.
  assert (B : bpow radix2 (-800) <= B2R m * B2R f).
  { assert (bpow radix2 (-151) = / 2 * bpow radix2 (-150)) by (change (/ 2) with (bpow radix2 (-1)); rewrite <- bpow_plus; f_equal).
    assert (bpow radix2 (-800) <= bpow radix2 (-151)) by (apply bpow_le; lia). lra. }
  pose proof (bpow_gt_0 radix2 (-800)). pose proof (rn64_rel (B2R m * B2R f)) as R. rewrite Rabs_pos_eq in R by lra. specialize (R B). apply Rabs_le_inv in R.
  assert (bpow radix2 1024 > 2 * bpow radix2 128). { change 2 with (bpow radix2 1). rewrite <- bpow_plus. apply bpow_lt. lia. }
  split; lra.
Qed.
End Factors.

Definition crossing (data : list (drow cd)) (r : drow cd) (i : nat) (v : cd) : Prop :=
  In r data /\ is_cross r = true /\ nth_error (visibilities r) i = Some v.

Lemma maxf_local l : let m := maxf (map local_max l) in is_finite m = true /\ 0 <= B2R m /\
  (forall v, In v l -> cnt v -> val v <= B2R m) /\ (B2R m = 0 \/ exists v, In v l /\ cnt v /\ val v = B2R m).
Proof.
  intros m. destruct (maxf_val (map local_max l)) as (F & P & H1 & H2). split; trivial. split; trivial. split.
  - intros v I C. rewrite <- cnt_val by trivial. apply H1; [now apply in_map|trivial].
  - destruct H2 as [H2|(c & I & Fc & E)]; [now left|right]. apply in_map_iff in I. destruct I as (v & <- & I). exists v. split; trivial. split; trivial.
    now rewrite <- cnt_val.
Qed.

Section Step.
Context (nPol nChan nAnt : nat).
Notation n := (nPol * nChan)%nat.

Definition op_max (o : op) (data : list (drow cd)) : f64 :=
  match o with Chan i _ => chan_max i data | Ant p a _ => ant_max nPol nChan p a data end.

Lemma op_max_spec o data : rows_of n data -> valid nPol nChan nAnt o -> let m := op_max o data in
  is_finite m = true /\ 0 <= B2R m /\ (forall r i v, crossing data r i v -> hits nPol o r i <> 0%nat -> cnt v -> val v <= B2R m) /\
  (B2R m = 0 \/ exists r i v, crossing data r i v /\ hits nPol o r i <> 0%nat /\ cnt v /\ val v = B2R m).
Proof.
  intros Hr Hv m. destruct o as [j f|p a f]; cbn [op_max] in m.
  - destruct (maxf_local (of_chan j (crosses data))) as (F & P & H1 & H2). split; trivial. split; trivial. split.
    + intros r i v (I & C & E) Hh. apply H1. apply of_chan_In. exists r. split; [now apply filter_In|]. cbn in Hh. destruct (Nat.eqb_spec i j) as [->|]; [trivial|easy].
    + destruct H2 as [H2|(v & I & C & E)]; [now left|right]. apply of_chan_In in I. destruct I as (r & I & N). apply filter_In in I.
      exists r, j, v. split; [now split|]. split; [cbn; now rewrite Nat.eqb_refl|]. now split.
  - destruct Hv as (Hp & Ha). destruct (maxf_local (of_ant nPol nChan p a data)) as (F & P & H1 & H2). split; trivial. split; trivial. split.
    + intros r i v (I & C & E) Hh. apply H1. unfold of_ant. apply in_flat_map. exists r. split; [now apply filter_In|]. cbn in Hh.
      destruct (Nat.eqb_spec (i mod nPol) p) as [Q|]; [|easy]. rewrite (proj2 (Nat.eqb_neq _ _) Hh). apply of_pol_In.
      pose proof (nth_lt _ _ _ E) as Hi. rewrite (Hr r I) in Hi. destruct (stride_of nPol nChan i Hi) as (_ & B & D). exists (i / nPol)%nat. split; trivial.
      now rewrite <- Q, <- D.
    + destruct H2 as [H2|(v & I & C & E)]; [now left|right]. unfold of_ant in I. apply in_flat_map in I. destruct I as (r & I & N). apply filter_In in I.
      destruct (Nat.eqb_spec (uses r a) 0) as [U|U]; [easy|]. apply of_pol_In in N. destruct N as (ch & Hch & N).
      exists r, (ch * nPol + p)%nat, v. split; [now split|]. split; [|now split]. cbn. now rewrite stride_mod, Nat.eqb_refl.
Qed.

Lemma cross_hits o (r : drow cd) i : is_cross r = true -> (hits nPol o r i <= 1)%nat.
Proof.
  intros C. apply Bool.negb_true_iff, Nat.eqb_neq in C. destruct o as [j f|p a f]; cbn; [destruct (i =? j)%nat; lia|].
  destruct (i mod nPol =? p)%nat; [|lia]. unfold uses. destruct (Nat.eqb_spec (antenna1 r) a), (Nat.eqb_spec (antenna2 r) a); lia.
Qed.

Lemma crossing_app o data r i v : crossing data r i v -> crossing (app_data nPol o data) (remap (fun r i => sc (fac o) (hits nPol o r i)) r) i (sc (fac o) (hits nPol o r i) v).
Proof.
  intros (I & C & E). split; [now apply in_map|]. split; trivial. cbn. now rewrite imap_nth, E.
Qed.
Lemma crossing_app_inv o data r' i v' : crossing (app_data nPol o data) r' i v' -> exists r v, crossing data r i v /\ antenna1 r = antenna1 r' /\ antenna2 r = antenna2 r' /\
  v' = sc (fac o) (hits nPol o r i) v.
Proof.
  intros (I & C & E). apply in_map_iff in I. destruct I as (r & <- & I). cbn [remap visibilities] in E. rewrite imap_nth in E.
  destruct (nth_error (visibilities r) i) as [v|] eqn:Ev; [|discriminate]. injection E as <-. exists r, v. repeat split; trivial.
Qed.

Lemma hits_same o (r r' : drow cd) i : antenna1 r = antenna1 r' -> antenna2 r = antenna2 r' -> hits nPol o r i = hits nPol o r' i.
Proof. intros A B. destruct o; cbn; trivial. unfold uses. now rewrite A, B. Qed.

(** increases that are chosen *)
Lemma add_inc_pos f l : Bltb zero64 (fold_left (add_inc f) l zero64) = true -> exists v, In v l /\ is_finite (abs_sum (cmul v f)) = true.
Proof.
  intros H. destruct (existsb (fun v => is_finite (abs_sum (cmul v f))) l) eqn:E.
  - apply existsb_exists in E. exact E.
  - exfalso. assert (Z : forall s, fold_left (add_inc f) l s = s).
    { clear H. induction l as [|v l IH]; intros s; cbn in *; trivial. apply Bool.orb_false_elim in E. destruct E as (E1 & E2). rewrite IH by trivial.
      unfold add_inc. now rewrite E1. }
    rewrite Z in H. discriminate.
Qed.

Lemma abs_sum_finite (v : cd) : is_finite (abs_sum v) = true -> is_finite (fst v) = true.
Proof.
  unfold abs_sum. destruct v as [re im]. cbn [fst snd]. destruct re as [s|s| |s m ex Hb]; trivial; destruct im as [s'|s'| |s' m' ex' Hb']; cbn; discriminate.
Qed.

Context (L : f64) (FL : is_finite L = true) (PL : 0 < B2R L) (RL : bpow radix2 (-150) <= B2R L <= bpow radix2 128).

Definition low := B2R L * (1 - bpow radix2 (-48)).
Definition high := B2R L * (1 + bpow radix2 (-48)).

Definition op_fits (o : op) (data : list (drow cd)) : Prop := 0 < B2R (op_max o data) /\ fits L (op_max o data) (fac o).
Definition pol_of (o : op) : nat := match o with Chan i _ => (i mod nPol)%nat | Ant p _ _ => p end.

Lemma lit_1_01_val : is_finite lit_1_01 = true /\ 1 + / 128 < B2R lit_1_01.
Proof.
  destruct (dy_exact (p := 53) (e := 1024) 4548635623644201 (-52)) as (F & E); [lia|lia|lia|]. split; trivial. unfold lit_1_01. rewrite E. cbn. lra.
Qed.
Lemma lit_1_001_val : is_finite lit_1_001 = true /\ 1 + / 2048 < B2R lit_1_001.
Proof.
  destruct (dy_exact (p := 53) (e := 1024) 2254051613498933 (-51)) as (F & E); [lia|lia|lia|]. split; trivial. unfold lit_1_001. rewrite E. cbn. lra.
Qed.

Lemma decide_spec pol data o g : shaped nPol nChan nAnt data -> (pol < nPol)%nat -> (0 < nChan)%nat -> decide nPol nChan nAnt pol L data = Some (o, g) ->
  valid nPol nChan nAnt o /\ pol_of o = pol /\ (is_finite (fac o) = true /\ B2R (fac o) = 1 /\ g = false \/
    op_fits o data /\ (g = true -> 1 + / 2048 < B2R (fac o))).
Proof.
  intros Hs Hp Hc E. pose proof (decide_valid nPol nChan nAnt pol L data o g Hp Hc E) as V. split; trivial. revert E. unfold decide.
  destruct (fold_left (chan_choice _ _ _ _) _ _) as [[bestC ch] cfac] eqn:EC. destruct (fold_left (ant_choice _ _ _ _ _) _ _) as [bestA a] eqn:EA.
  destruct one64_val as (F1 & E1). destruct (Bltb bestC bestA) eqn:B.
  - destruct (Bltb (ant_factor _ _) one64) eqn:B1; [discriminate|]. intros [= <- <-]. cbn [pol_of fac]. split; trivial.
    destruct (ant_chosen _ _ _ _ _ _ _ _ _ _ _ EC EA B) as (Ha & Pos & Einc).
    unfold ant_factor in *. destruct (is0 (ant_max nPol nChan pol a data)) eqn:Z.
    + left. rewrite E1. repeat split; trivial.
    + right. destruct (op_max_spec (Ant pol a one64) data (proj1 Hs)) as (Fm & Pm & _); [now split|]. cbn [op_max] in Fm, Pm.
      assert (Pm' : 0 < B2R (ant_max nPol nChan pol a data)).
      { destruct Pm as [Pm|Pm]; trivial. exfalso. rewrite (proj2 (is0_val _ Fm)) in Z by congruence. discriminate. }
      rewrite Einc in Pos. unfold ant_inc in Pos. apply add_inc_pos in Pos. destruct Pos as (v & _ & Fin). apply abs_sum_finite in Fin.
      cbn [cmul fst] in Fin. apply mul_finite_inv in Fin. destruct Fin as (_ & Fg). unfold gain_factor in Fg. rewrite Z in Fg.
      assert (Fq : is_finite (div64 L (ant_max nPol nChan pol a data)) = true).
      { unfold sub64, Bminus in Fg. destruct (div64 L (ant_max nPol nChan pol a data)); trivial; cbn in Fg; discriminate. }
      pose proof (div_fits L _ FL Fm Pm' Fq B1) as Fits. split; [now split|]. intros G. apply Bltb_true in G. destruct G as (_ & _ & G).
      destruct lit_1_01_val. rewrite !K_finite in G by trivial. lra.
  - destruct (Bltb cfac one64) eqn:B1; [discriminate|]. intros [= <- <-]. cbn [pol_of fac].
    split; [now apply stride_mod|].
    apply chan_choice_inv in EC. destruct EC as [[= -> -> ->]|(Hch & Pos & Einc & Ecf)].
    + left. rewrite E1. repeat split; trivial.
    + set (i := (ch * nPol + pol)%nat) in *.
      destruct (op_max_spec (Chan i one64) data (proj1 Hs)) as (Fm & Pm & _); [apply stride_lt; lia|]. cbn [op_max] in Fm, Pm.
      unfold gain_factor in *. destruct (is0 (chan_max i data)) eqn:Z.
      * left. assert (Ec : is_finite cfac = true /\ B2R cfac = 1).
        { rewrite Ecf. apply (op_ok_exact (add64 zero64 one64) 1 one64); trivial. replace 1 with (B2R zero64 + B2R one64) by (rewrite E1; cbn; lra). now apply plus_ok. }
        split; [apply Ec|]. split; [apply Ec|]. destruct (Bltb lit_1_001 cfac) eqn:G; trivial. apply Bltb_true in G. destruct G as (_ & _ & G).
        destruct lit_1_001_val. rewrite !K_finite in G by (trivial; apply Ec). lra.
      * right. assert (Pm' : 0 < B2R (chan_max i data)).
        { destruct Pm as [Pm|Pm]; trivial. exfalso. rewrite (proj2 (is0_val _ Fm)) in Z by congruence. discriminate. }
        rewrite Einc in Pos. unfold chan_inc in Pos. apply add_inc_pos in Pos. destruct Pos as (v & _ & Fin). apply abs_sum_finite in Fin.
        cbn [cmul fst] in Fin. apply mul_finite_inv in Fin. destruct Fin as (_ & Fg). rewrite Ecf in B1.
        pose proof (gain_fits L _ FL PL Fm Pm' Fg B1) as Fits. rewrite <- Ecf in Fits. split; [now split|]. intros G. apply Bltb_true in G. destruct G as (_ & _ & G).
        destruct lit_1_001_val. rewrite !K_finite in G by (trivial; apply Fits). lra.
Qed.

(** ** Effect of a round on the samples *)
Definition ok_op (o : op) (data : list (drow cd)) : Prop := is_finite (fac o) = true /\ (B2R (fac o) = 1 \/ op_fits o data).
Definition sat (o : op) (data : list (drow cd)) : Prop :=
  exists r i v, crossing data r i v /\ hits nPol o r i <> 0%nat /\ cnt v /\ low <= val v.

Lemma ok_ge o data : ok_op o data -> 1 <= B2R (fac o).
Proof. intros (_ & [E|(_ & _ & H & _)]); lra. Qed.

Lemma val_rn v : cnt v -> rn64 (val v) = val v /\ val v < bpow radix2 1024.
Proof. intros C. rewrite <- cnt_val by trivial. split; [apply rne_id|]. apply (B2R_bounds (local_max v)). Qed.

Lemma grow o data r i v : rows_of n data -> valid nPol nChan nAnt o -> ok_op o data -> crossing data r i v -> cnt v ->
  let v' := sc (fac o) (hits nPol o r i) v in
  cnt v' /\ val v <= val v' /\ (val v' = val v \/ val v' <= high) /\
  (hits nPol o r i <> 0%nat -> val v' = rn64 (val v * B2R (fac o))).
Proof.
  intros Hr Hv (Ff & Ho) Hx C. pose proof (proj1 (proj2 Hx)) as Cr. pose proof (cross_hits o r i Cr) as Hh. cbn zeta.
  destruct (val_rn v C) as (Rv & Bv). pose proof (val_pos v) as Pv.
  destruct (hits nPol o r i) as [|[|k]] eqn:Eh; [|clear Hh|lia].
  - cbn. split; trivial. split; [lra|]. split; [now left|easy].
  - change (sc (fac o) 1 v) with (cmul v (fac o)). destruct Ho as [E1|(Pm & Hf)].
    + destruct (cnt_mul v (fac o) Ff ltac:(lra) C) as (A & B); [rewrite E1, Rmult_1_r, Rv; trivial|]. rewrite B. rewrite E1, Rmult_1_r, Rv. auto with real.
    + destruct (op_max_spec o data Hr Hv) as (Fm & _ & Hm & _). destruct (fits_max L (op_max o data) PL _ RL Hf) as ((M1 & M2) & M3).
      specialize (Hm r i v Hx ltac:(lia) C). pose proof (proj1 (proj2 Hf)) as Hf1.
      assert (Le : rn64 (val v * B2R (fac o)) <= rn64 (B2R (op_max o data) * B2R (fac o))) by (apply rne_le; apply Rmult_le_compat_r; lra).
      destruct (cnt_mul v (fac o) Ff ltac:(lra) C) as (A & B); [lra|]. rewrite B. split; trivial. split; [|split; [right; unfold high; lra|trivial]].
      rewrite <- Rv at 1. apply rne_le. nra.
Qed.

Lemma sat_app k o data : rows_of n data -> valid nPol nChan nAnt o -> ok_op o data -> sat k data -> sat k (app_data nPol o data).
Proof.
  intros Hr Hv Ho (r & i & v & Hx & Hh & C & V). destruct (grow o data r i v Hr Hv Ho Hx C) as (C' & G & _).
  eexists. exists i. eexists. split; [apply crossing_app; exact Hx|]. split; [|split; [exact C'|lra]].
  rewrite (hits_same k _ r); trivial.
Qed.

Lemma sat_new o data : rows_of n data -> valid nPol nChan nAnt o -> op_fits o data -> sat o (app_data nPol o data).
Proof.
  intros Hr Hv Ho. destruct (op_max_spec o data Hr Hv) as (Fm & _ & _ & [Z|(r & i & v & Hx & Hh & C & E)]); [destruct Ho; lra|].
  assert (Hok : ok_op o data) by (split; [apply Ho|now right]).
  destruct (grow o data r i v Hr Hv Hok Hx C) as (C' & _ & _ & G). specialize (G Hh).
  eexists. exists i. eexists. split; [apply crossing_app; exact Hx|]. split; [|split; [exact C'|]].
  - rewrite (hits_same o _ r); trivial.
  - rewrite G, E. apply (fits_max L (op_max o data) PL _ RL (proj2 Ho)).
Qed.

Lemma sat_old o data : rows_of n data -> valid nPol nChan nAnt o -> op_fits o data -> 1 + / 2048 < B2R (fac o) -> ~ sat o data.
Proof.
  intros Hr Hv (Pm & Ff & F1 & E) G (r & i & v & Hx & Hh & C & V). destruct (op_max_spec o data Hr Hv) as (_ & _ & Hm & _). specialize (Hm r i v Hx Hh C).
  unfold low in V. assert (P48 : bpow radix2 (-48) = / 281474976710656) by (cbn; lra). rewrite P48 in V. rewrite p50 in E. apply Rabs_le_inv in E.
  set (m := B2R (op_max o data)) in *. set (f := B2R (fac o)) in *. assert (B2R L * (1 - / 281474976710656) <= m) by lra. nra.
Qed.

Definition bounded (i : nat) (data : list (drow cd)) : Prop := forall r v, crossing data r i v -> cnt v -> val v <= high.

Lemma bounded_app i o data : rows_of n data -> valid nPol nChan nAnt o -> ok_op o data -> bounded i data -> bounded i (app_data nPol o data).
Proof.
  intros Hr Hv Ho Hb r' v' Hx C'. apply crossing_app_inv in Hx. destruct Hx as (r & v & Hx & _ & _ & ->).
  assert (C : cnt v).
  { pose proof (cross_hits o r i (proj1 (proj2 Hx))) as Hh. pose proof (ok_ge o data Ho). destruct (hits nPol o r i) as [|[|k]]; [trivial| |lia].
    apply (cnt_mul_inv v (fac o)); trivial; [apply Ho|lra]. }
  destruct (grow o data r i v Hr Hv Ho Hx C) as (_ & _ & [->|H] & _); trivial. now apply (Hb r v).
Qed.

(** ** The loop ends *)
Definition key (o : op) : op := match o with Chan i _ => Chan i one64 | Ant p a _ => Ant p a one64 end.
Definition keys (pol : nat) : list op := map (fun ch => Chan (ch * nPol + pol) one64) (seq 0 nChan) ++ map (fun a => Ant pol a one64) (seq 0 nAnt).

Lemma keys_length pol : length (keys pol) = (nChan + nAnt)%nat.
Proof. unfold keys. now rewrite app_length, !map_length, !seq_length. Qed.

Lemma key_in o pol : valid nPol nChan nAnt o -> pol_of o = pol -> In (key o) (keys pol).
Proof.
  intros V <-. unfold keys. apply in_or_app. destruct o as [i f|p a f]; cbn [key pol_of valid] in *.
  - left. apply in_map_iff. destruct (stride_of nPol nChan i V) as (_ & A & B). exists (i / nPol)%nat. rewrite <- B. split; trivial. apply in_seq. split; [apply Nat.le_0_l|exact A].
  - right. apply in_map_iff. exists a. split; trivial. apply in_seq. lia.
Qed.

Lemma sat_key o data : sat (key o) data <-> sat o data.
Proof. unfold sat. now destruct o. Qed.

Definition apps (ops : list op) (data : list (drow cd)) : list (drow cd) := fold_left (fun d o => app_data nPol o d) ops data.
Definition metas (ops : list op) (meta : list f32) : list f32 := fold_left (fun m o => app_meta nPol nChan nAnt o m) ops meta.

Fixpoint steps (ops : list op) (data : list (drow cd)) : Prop :=
  match ops with
  | [] => True
  | o :: ops => valid nPol nChan nAnt o /\ ok_op o data /\ steps ops (app_data nPol o data)
  end.

Lemma run_trace fuel pol : (pol < nPol)%nat -> (0 < nChan)%nat -> forall data D, shaped nPol nChan nAnt data -> NoDup D ->
  (forall k, In k D -> In k (keys pol) /\ sat k data) -> (nChan + nAnt < fuel + length D)%nat ->
  exists pre last, (forall fuel' meta, (fuel <= fuel')%nat -> run nPol nChan nAnt fuel' pol L data meta = Some (apps (pre ++ last) data, metas (pre ++ last) meta)) /\
    steps (pre ++ last) data /\ (forall o, In o (pre ++ last) -> pol_of o = pol) /\
    (length last <= 1)%nat /\ NoDup (map key pre) /\ forall k, In k D -> ~ In k (map key pre).
Proof.
  intros Hp Hc. induction fuel as [|fuel IH]; intros data D Hs ND HD Hf.
  - exfalso. assert (length D <= length (keys pol))%nat by (apply NoDup_incl_length; trivial; intros k I; now apply HD). rewrite keys_length in *. lia.
  - destruct (decide nPol nChan nAnt pol L data) as [[o g]|] eqn:E.
    + destruct (decide_spec pol data o g Hs Hp Hc E) as (V & Po & Ho).
      assert (Hok : ok_op o data). { destruct Ho as [(A & B & _)|(A & _)]; [split; auto|]. split; [apply A|now right]. }
      destruct g.
      * destruct Ho as [(_ & _ & Q)|(Hfit & Hg)]; [discriminate|]. specialize (Hg eq_refl).
        pose proof (sat_old o data (proj1 Hs) V Hfit Hg) as Old. pose proof (sat_new o data (proj1 Hs) V Hfit) as New.
        destruct (IH (app_data nPol o data) (key o :: D)) as (pre & last & Er & St & Pl & Ll & Nd & Dis).
        -- now apply app_shaped.
        -- constructor; trivial. intros I. apply HD in I. destruct I as (_ & I). apply (proj1 (sat_key _ _)) in I. contradiction.
        -- intros k [<-|I]; [split; [now apply key_in|now apply (proj2 (sat_key _ _))]|]. split; [now apply HD|]. apply sat_app; trivial; [apply Hs|now apply HD].
        -- cbn [length]. lia.
        -- exists (o :: pre), last. split; [intros [|fuel'] meta Hle; [lia|]; cbn [run]; rewrite E; apply Er; lia|]. split; [now split|]. split; [intros x [<-|I]; auto|]. split; trivial. cbn [map]. split.
           ++ constructor; trivial. apply Dis. now left.
           ++ intros k I [<-|J]; [|apply (Dis k); [now right|trivial]]. apply HD in I. destruct I as (_ & I). apply (proj1 (sat_key _ _)) in I. contradiction.
      * exists [], [o]. cbn [app]. split; [intros [|fuel'] meta Hle; [lia|]; cbn [run]; now rewrite E|]. split; [now cbn|]. split; [intros x [<-|[]]; trivial|]. cbn. split; [lia|]. split; [constructor|auto].
    + exists [], []. split; [intros [|fuel'] meta Hle; [lia|]; cbn [run]; now rewrite E|]. cbn. split; trivial. split; [easy|]. split; [lia|]. split; [constructor|auto].
Qed.

Definition hitting (r : drow cd) (i : nat) (ops : list op) : list op := filter (fun o => negb (hits nPol o r i =? 0)%nat) ops.

Lemma hitting_pre r i pre : NoDup (map key pre) -> (length (hitting r i pre) <= 3)%nat.
Proof.
  intros ND. assert (H : NoDup (map key (hitting r i pre))).
  { unfold hitting. induction pre as [|o pre IH]; cbn [filter map] in *; [constructor|]. inversion ND as [|? ? N1 N2]; subst.
    destruct (negb _); [|now apply IH]. cbn [map]. constructor; [|now apply IH]. intros I. apply N1. apply in_map_iff in I. destruct I as (x & Ex & I).
    apply filter_In in I. apply in_map_iff. exists x. now split. }
  rewrite <- (map_length key). apply (NoDup_incl_length H (l' := [Chan i one64; Ant (i mod nPol) (antenna1 r) one64; Ant (i mod nPol) (antenna2 r) one64])).
  intros k I. apply in_map_iff in I. destruct I as (o & <- & I). apply filter_In in I. destruct I as (_ & I). apply Bool.negb_true_iff, Nat.eqb_neq in I.
  destruct o as [j f|p a f]; cbn in *.
  - destruct (Nat.eqb_spec i j) as [->|]; [now left|easy].
  - destruct (Nat.eqb_spec (i mod nPol) p) as [->|]; [|easy]. unfold uses in I. destruct (Nat.eqb_spec (antenna1 r) a) as [->|]; [auto|].
    destruct (Nat.eqb_spec (antenna2 r) a) as [->|]; [auto|easy].
Qed.

Lemma hitting_app r i l l' : hitting r i (l ++ l') = hitting r i l ++ hitting r i l'.
Proof. apply filter_app. Qed.

Lemma hitting_pol (r : drow cd) i o : hits nPol o r i <> 0%nat -> pol_of o = (i mod nPol)%nat.
Proof.
  destruct o as [j f|p a f]; cbn; [destruct (Nat.eqb_spec i j) as [->|]; easy|]. now destruct (Nat.eqb_spec (i mod nPol) p).
Qed.

Lemma hitting_none r i ops pol : (forall o, In o ops -> pol_of o = pol) -> pol <> (i mod nPol)%nat -> hitting r i ops = [].
Proof.
  intros H N. unfold hitting. induction ops as [|o ops IH]; cbn; trivial. destruct (Nat.eqb_spec (hits nPol o r i) 0) as [Z|Z]; cbn.
  - apply IH. intros; apply H; now right.
  - exfalso. apply hitting_pol in Z. apply N. rewrite <- Z. symmetry. apply H. now left.
Qed.

Lemma steps_app ops ops' data : steps (ops ++ ops') data <-> steps ops data /\ steps ops' (apps ops data).
Proof.
  revert data. induction ops as [|o ops IH]; intros data; cbn [app steps]; [unfold apps; cbn; tauto|]. rewrite IH. unfold apps. cbn. tauto.
Qed.
Lemma apps_app ops ops' data : apps (ops ++ ops') data = apps ops' (apps ops data).
Proof. apply fold_left_app. Qed.
Lemma metas_app ops ops' meta : metas (ops ++ ops') meta = metas ops' (metas ops meta).
Proof. apply fold_left_app. Qed.
Lemma apps_shaped ops data : shaped nPol nChan nAnt data -> shaped nPol nChan nAnt (apps ops data).
Proof. revert data. induction ops as [|o ops IH]; intros data H; cbn; trivial. apply IH. now apply app_shaped. Qed.

Lemma runs_trace fuel pols : (forall p, In p pols -> (p < nPol)%nat) -> NoDup pols -> (0 < nChan)%nat -> (nChan + nAnt < fuel)%nat ->
  forall data, shaped nPol nChan nAnt data ->
  exists ops, (forall fuel' meta, (fuel <= fuel')%nat -> runs nPol nChan nAnt fuel' L pols data meta = Some (apps ops data, metas ops meta)) /\ steps ops data /\
    (forall o, In o ops -> In (pol_of o) pols) /\ forall r i, (length (hitting r i ops) <= 4)%nat.
Proof.
  intros Hp ND Hc Hf. induction pols as [|p pols IH]; intros data Hs.
  - exists []. cbn. split; [reflexivity|]. split; trivial. split; [easy|]. intros; lia.
  - destruct (run_trace fuel p (Hp p (or_introl eq_refl)) Hc data [] Hs) as (pre & last & E & St & Pl & Ll & Nd & _); [constructor|easy|cbn; lia|].
    inversion ND as [|? ? N1 N2]; subst.
    destruct (IH (fun q I => Hp q (or_intror I)) N2 (apps (pre ++ last) data)) as (ops & E' & St' & Pl' & H'); [now apply apps_shaped|].
    exists ((pre ++ last) ++ ops). split; [|split; [now apply steps_app|split]].
    + intros fuel' meta Hle. cbn [runs]. rewrite E by trivial. etransitivity; [now apply E'|]. now rewrite (apps_app (pre ++ last) ops), (metas_app (pre ++ last) ops).
    + intros o I. apply in_app_or in I. destruct I as [I|I]; [left; symmetry; now apply Pl|right; now apply Pl'].
    + intros r i. rewrite hitting_app, app_length. destruct (Nat.eq_dec p (i mod nPol)) as [Q|Q].
      * replace (hitting r i ops) with (@nil op).
        -- rewrite hitting_app, app_length. pose proof (hitting_pre r i pre Nd).
           assert (length (hitting r i last) <= length last)%nat by (unfold hitting; clear; induction last as [|o last IH]; cbn; [lia|]; destruct (negb _); cbn; lia). cbn. lia.
        -- symmetry. unfold hitting. clear - Pl' N1 Q. induction ops as [|o ops IH]; cbn; trivial.
           destruct (Nat.eqb_spec (hits nPol o r i) 0) as [Z|Z]; cbn; [apply IH; intros; apply Pl'; now right|].
           exfalso. apply hitting_pol in Z. apply N1. rewrite Q, <- Z. apply Pl'. now left.
      * rewrite (hitting_none r i (pre ++ last) p) by trivial. cbn. apply H'.
Qed.

Lemma bounded_steps i ops : forall data, shaped nPol nChan nAnt data -> steps ops data -> bounded i data -> bounded i (apps ops data).
Proof.
  induction ops as [|o ops IH]; intros data Hs St Hb; cbn; trivial. destruct St as (V & Ho & St). apply IH; trivial; [now apply app_shaped|].
  apply bounded_app; trivial. apply Hs.
Qed.
End Step.
