(** The antenna factor encoder: range of the antenna factors, zero channels and
    zero blocks.  Proof file. *)
From Coq Require Import Reals Lra Psatz.
From Flocq Require Import Core.
From Verif Require Import Base BaseLemmas Floats FloatLemmas WeightProofs WeightMoreProofs TimeBlockBuffer StochasticEncoder EncSpec TimeBlockEncoders
  TbeSpec TbeLoops TbeRowRf TbeReal TbeErr TbeRowRfProofs TbeMore AfForm AfFit AfSpec AfCode AfErr AfBound AfMore AfInfl.
Local Open Scope R_scope.
Local Arguments imap : simpl never.
Local Arguments Nat.ltb : simpl never.

(** ** Non-negative numbers *)
Lemma div_nn a b : 0 <= a -> 0 < b -> 0 <= a / b.
Proof. intros A B. apply Rmult_le_pos; trivial. left. now apply Rinv_0_lt_compat. Qed.
Lemma div_le a b c : 0 < b -> a <= c * b -> a / b <= c.
Proof. intros B H. apply Rmult_le_reg_r with b; trivial. unfold Rdiv. rewrite Rmult_assoc, Rinv_l by lra. lra. Qed.

Definition pos (a : Z) (x : f64) : Prop := is_finite x = true /\ 0 <= B2R x <= bpow radix2 a.

Lemma pos_weaken a b x : pos a x -> (a <= b)%Z -> pos b x.
Proof. intros (F & H) L. split; trivial. pose proof (bpow_le radix2 a b L). lra. Qed.

Lemma op_pos z r a : op_ok z r -> 0 <= r <= bpow radix2 a -> (-1000 <= a < 1024)%Z -> pos a z /\ B2R z = rn64 r.
Proof.
  intros O H Ha. destruct (op_ok_bounded z r a O) as (F & E & _); [rewrite Rabs_pos_eq; lra|lia|]. split; [|exact E]. split; [exact F|]. rewrite E. split; [now apply rne_ge0|].
  rewrite <- (rne_bpow (p := 53) (e := 1024) a) by lia. now apply rne_le.
Qed.
Lemma mul_pos a b x y : pos a x -> pos b y -> (-1000 <= a + b < 1024)%Z -> pos (a + b) (mul64 x y) /\ B2R (mul64 x y) = rn64 (B2R x * B2R y).
Proof.
  intros (Fx & Hx) (Fy & Hy) H. apply op_pos; trivial; [now apply mult_ok|]. rewrite bpow_plus. split; [nra|]. apply Rmult_le_compat; lra.
Qed.
Lemma add_pos' a x y : pos a x -> pos a y -> (-1000 <= a < 1023)%Z -> pos (a + 1) (add64 x y) /\ B2R x <= B2R (add64 x y) /\ B2R y <= B2R (add64 x y).
Proof.
  intros (Fx & Hx) (Fy & Hy) H. destruct (op_pos (add64 x y) (B2R x + B2R y) (a + 1)) as (P & E); [now apply plus_ok| |lia|].
  - rewrite bpow_plus. change (bpow radix2 1) with 2. lra.
  - assert (Ex := rne_id x). assert (Ey := rne_id y). split; trivial. rewrite E. split; [rewrite <- Ex at 1|rewrite <- Ey at 1]; apply rne_le; lra.
Qed.
(** summing up *)
Lemma add_many q k (s x : f64) : is_finite s = true -> 0 <= B2R s <= IZR k * bpow radix2 q -> pos q x -> (0 <= k < 2 ^ 52)%Z -> (-1000 <= q < 960)%Z ->
  is_finite (add64 s x) = true /\ 0 <= B2R (add64 s x) <= IZR (k + 1) * bpow radix2 q /\ B2R s <= B2R (add64 s x) /\ B2R x <= B2R (add64 s x).
Proof.
  intros Fs Hs (Fx & Hx) Hk Hq. assert (U : rn64 (B2R s + B2R x) <= IZR (k + 1) * bpow radix2 q).
  { rewrite <- (rne_F2R (p := 53) (e := 1024) (k + 1) q) by (try lia; rewrite Z.abs_eq by lia; lia). apply rne_le. rewrite plus_IZR. lra. }
  assert (Lx : B2R s <= rn64 (B2R s + B2R x)) by (rewrite <- (rne_id s) at 1; apply rne_le; lra).
  assert (Ly : B2R x <= rn64 (B2R s + B2R x)) by (rewrite <- (rne_id x) at 1; apply rne_le; lra).
  destruct (op_ok_finite (add64 s x) (B2R s + B2R x)) as (A & E); [now apply plus_ok| |].
  - rewrite Rabs_pos_eq by lra. eapply Rle_lt_trans; [exact U|]. apply Rlt_trans with (bpow radix2 53 * bpow radix2 q).
    + apply Rmult_lt_compat_r; [apply bpow_gt_0|]. change (bpow radix2 53) with (IZR (2 ^ 53)). apply IZR_lt. lia.
    + rewrite <- bpow_plus. apply bpow_lt. lia.
  - rewrite E. split; [exact A|]. split; lra.
Qed.
Lemma sqrt_pos (y : f64) : is_finite (sqrt64 y) = true -> pos 512 (sqrt64 y).
Proof.
  intros F. split; trivial. destruct (Bsqrt_correct 53 1024 _ _ mode_NE y) as (E & _ & _). unfold sqrt64. rewrite E. cbn [round_mode].
  split; [apply rne_ge0, sqrt_pos|]. rewrite <- (rne_bpow (p := 53) (e := 1024) 512) by lia. apply rne_le. rewrite <- (sqrt_bpow radix2 512).
  apply sqrt_le_1_alt. pose proof (abs_B2R_lt_emax 53 1024 y) as Q. change (2 * 512)%Z with 1024%Z. pose proof (Rle_abs (B2R y)). lra.
Qed.

(** ** One iteration for the antenna factors *)
Section Rms.
Context (nAnt : nat) (meas : list RMSMeasurement) (u : Z).
Context (Hm : length meas = (nAnt * nAnt)%nat) (Hn : (Z.of_nat nAnt <= 2 ^ 50)%Z) (Hu : (0 <= u <= 900)%Z).
Context (Hx : u = 900%Z \/ forall m, In m meas -> is_finite (RMS m) = true -> B2R (RMS m) = 0).

(** an antenna factor after [k] iterations *)
Definition rok (k : Z) (x : f64) : Prop := pos u x /\ (B2R x = 0 \/ bpow radix2 (-3 * k - 17) <= B2R x).

Lemma next_pos k rms i : (0 <= k <= 100)%Z -> length rms = nAnt -> Forall (rok k) rms -> (i < nAnt)%nat ->
  exists x, next_rms nAnt meas rms i = Ok x /\ pos (u - 1) x.
Proof.
  intros Hk Hr Ha Hi. unfold next_rms. rewrite Forall_forall in Ha.
  assert (Low : bpow radix2 (-320) <= bpow radix2 (-3 * k - 17)) by (apply bpow_le; lia).
  destruct (foldM_seq (fun '(next, weightSum) j =>
    do w <- rd rms j;
    if negb (i =? j)%nat && negb (is0 w) then
      do x <- matrix nAnt meas i j;
      Ok (if is_finite x then (add64 next x, add64 weightSum w) else (next, weightSum))
    else Ok (next, weightSum)) (fun j s => is_finite (fst s) = true /\ is_finite (snd s) = true /\
      0 <= B2R (fst s) <= IZR (Z.of_nat j) * bpow radix2 512 /\ (u = 900%Z \/ B2R (fst s) = 0) /\
      0 <= B2R (snd s) <= IZR (Z.of_nat j) * bpow radix2 900 /\ (B2R (snd s) = 0 \/ bpow radix2 (-320) <= B2R (snd s))) nAnt (zero64, zero64))
    as ([next ws] & E & F1 & F2 & B1 & Z1 & B2 & Z2).
  - cbn. repeat split; auto; lra.
  - intros j [s t] Hj (F1 & F2 & B1 & Z1 & B2 & Z2). cbn [fst snd] in *.
    assert (Step : 0 <= bpow radix2 512 /\ 0 <= bpow radix2 900 /\ IZR (Z.of_nat (S j)) = IZR (Z.of_nat j) + 1).
    { split; [apply bpow_ge_0|]. split; [apply bpow_ge_0|]. rewrite Nat2Z.inj_succ. unfold Z.succ. now rewrite plus_IZR. }
    assert (Skip : exists s', @Ok (f64 * f64) (s, t) = Ok s' /\ (is_finite (fst s') = true /\ is_finite (snd s') = true /\
      0 <= B2R (fst s') <= IZR (Z.of_nat (S j)) * bpow radix2 512 /\ (u = 900%Z \/ B2R (fst s') = 0) /\
      0 <= B2R (snd s') <= IZR (Z.of_nat (S j)) * bpow radix2 900 /\ (B2R (snd s') = 0 \/ bpow radix2 (-320) <= B2R (snd s')))).
    { exists (s, t). split; trivial. cbn [fst snd]. destruct Step as (S1 & S2 & S3). rewrite S3. repeat split; trivial; lra. }
    destruct (rd_ok rms j) as (w & E & Nw); [lia|]. rewrite E. cbn [bind]. destruct (negb (i =? j)%nat); cbn [andb]; [|exact Skip].
    destruct (is0 w) eqn:Ew; cbn [negb]; [exact Skip|].
    unfold matrix. destruct (rd_ok meas (Nat.min i j * nAnt + Nat.max i j)) as (m & Em & Nm); [rewrite Hm; now apply pair_lt|]. rewrite Em. cbn [bind].
    destruct (is_finite (RMS m)) eqn:Fm; [|exact Skip]. eexists. split; [reflexivity|]. cbn [fst snd].
    pose proof (sqrt_pos _ Fm) as Pm. fold (RMS m) in Pm. destruct (Ha w (nth_error_In _ _ Nw)) as (Pw & Zw).
    pose proof (pos_weaken _ 900 _ Pw ltac:(lia)) as Pw'.
    destruct (add_many 512 (Z.of_nat j) s (RMS m) F1 B1 Pm) as (G1 & G2 & _ & _); [lia|lia|].
    destruct (add_many 900 (Z.of_nat j) t w F2 B2 Pw') as (G3 & G4 & G5 & G6); [lia|lia|].
    replace (Z.of_nat (S j)) with (Z.of_nat j + 1)%Z by lia. split; trivial. split; trivial. split; trivial. split; [|split; trivial].
    + destruct Z1 as [Z1|Z1]; [now left|]. destruct Hx as [Hx'|Hx']; [now left|right]. pose proof (Hx' m (nth_error_In _ _ Nm) Fm) as Q.
      destruct (op_ok_exact (add64 s (RMS m)) (B2R s + B2R (RMS m)) s) as (_ & Q2); [now apply plus_ok|trivial|lra|]. rewrite Q2. lra.
    + right. destruct Zw as [Zw|Zw]; [|lra]. exfalso. apply (is0_val w (proj1 Pw)) in Zw. congruence.
  - cbn [fst snd] in *. rewrite E. cbn [bind]. eexists. split; [reflexivity|]. destruct (is0 ws) eqn:Ew.
    + split; [reflexivity|]. cbn. split; [lra|apply bpow_ge_0].
    + assert (Nz : B2R ws <> 0) by (intros Q; apply (is0_val ws F2) in Q; congruence). destruct Z2 as [Z2|Z2]; [easy|].
      assert (Pws : 0 < B2R ws) by (pose proof (bpow_gt_0 radix2 (-320)); lra).
      apply (op_pos (div64 next ws) (B2R next / B2R ws)); [now apply div_ok| |lia]. split; [apply div_nn; lra|].
      destruct Z1 as [Z1|Z1].
      * rewrite Z1. change (900 - 1)%Z with 899%Z. apply div_le; trivial. apply Rle_trans with (bpow radix2 899 * bpow radix2 (-320)).
        { rewrite <- bpow_plus. eapply Rle_trans; [apply B1|]. apply Rle_trans with (bpow radix2 50 * bpow radix2 512).
          - apply Rmult_le_compat_r; [apply bpow_ge_0|]. change (bpow radix2 50) with (IZR (2 ^ 50)). apply IZR_le. lia.
          - rewrite <- bpow_plus. apply bpow_le. lia. }
        apply Rmult_le_compat_l; [apply bpow_ge_0|trivial].
      * rewrite Z1. unfold Rdiv. rewrite Rmult_0_l. apply bpow_ge_0.
Qed.

Lemma mapM_all {A B} (f : A -> res B) (P : B -> Prop) l : (forall a, In a l -> exists b, f a = Ok b /\ P b) -> exists l', mapM f l = Ok l' /\ length l' = length l /\ Forall P l'.
Proof.
  induction l as [|a l IH]; intros H; cbn; [eauto|]. destruct (H a) as (b & E & Pb); [now left|]. rewrite E. cbn.
  destruct IH as (l' & E' & L & F); [intros; apply H; now right|]. rewrite E'. cbn. eexists. split; [reflexivity|]. cbn. rewrite L. split; trivial. now constructor.
Qed.

Lemma lits : (is_finite lit_0_8 = true /\ 0 <= B2R lit_0_8 <= 1) /\ (is_finite lit_0_2 = true /\ 3/16 <= B2R lit_0_2 <= / 4) /\ (is_finite lit_1e_5 = true /\ / 120000 <= B2R lit_1e_5 <= / 90000).
Proof.
  assert (D : forall m ex, (Z.abs m < 2 ^ 53)%Z -> (-1000 <= ex <= 900)%Z -> is_finite (dy m ex : f64) = true /\ B2R (dy m ex : f64) = IZR m * bpow radix2 ex).
  { intros m ex H1 H2. apply (dy_exact (p := 53) (e := 1024)); [exact H1|lia|lia]. }
  unfold lit_0_8, lit_0_2, lit_1e_5.
  destruct (D 3602879701896397%Z (-52)%Z) as (A1 & A2); [lia|lia|]. destruct (D 3602879701896397%Z (-54)%Z) as (B1 & B2); [lia|lia|].
  destruct (D 5902958103587057%Z (-69)%Z) as (C1 & C2); [lia|lia|]. rewrite A2, B2, C2.
  change (bpow radix2 (-52)) with (/ IZR (2 ^ 52)). change (bpow radix2 (-54)) with (/ IZR (2 ^ 54)). change (bpow radix2 (-69)) with (/ IZR (2 ^ 69)).
  cbn [Z.pow Z.pow_pos Pos.iter Z.mul Pos.mul]. repeat split; trivial; lra.
Qed.

Definition decay (s : f64 * f64) : f64 := add64 (mul64 (fst s) lit_0_8) (mul64 (snd s) lit_0_2).

Lemma decay_pos k x old : (0 <= k <= 100)%Z -> pos (u - 1) x -> rok k old -> pos u (decay (x, old)) /\ B2R old / 8 <= B2R (decay (x, old)).
Proof.
  intros Hk Px (Po & Zo). destruct lits as ((F8 & R8) & (F2 & R2) & _). unfold decay. cbn [fst snd].
  assert (P8 : pos 0 lit_0_8) by (split; trivial; change (bpow radix2 0) with 1; lra).
  assert (P2 : pos (-2) lit_0_2) by (split; trivial; change (bpow radix2 (-2)) with (/ 4); lra).
  destruct (mul_pos (u - 1) 0 x lit_0_8 Px P8) as (M1 & _); [lia|]. destruct (mul_pos u (-2) old lit_0_2 Po P2) as (M2 & E2); [lia|].
  destruct (add_pos' (u - 1) (mul64 x lit_0_8) (mul64 old lit_0_2)) as (S1 & S2 & S3); [now rewrite Z.add_0_r in M1|eapply pos_weaken; [exact M2|lia]|lia|].
  split; [replace u with (u - 1 + 1)%Z by lia; exact S1|]. destruct Po as (_ & Po). destruct Zo as [Zo|Zo]; [rewrite Zo; destruct S1 as (_ & S1); lra|].
  eapply Rle_trans; [|exact S3]. rewrite E2. pose proof (bpow_gt_0 radix2 (-3 * k - 17)) as G.
  assert (Big : bpow radix2 (-800) <= Rabs (B2R old * B2R lit_0_2)).
  { rewrite Rabs_pos_eq by nra. apply Rle_trans with (bpow radix2 (-3 * k - 17) * (3 / 16)); [|apply Rmult_le_compat; lra].
    apply Rle_trans with (bpow radix2 (-3 * k - 17) * bpow radix2 (-3)); [rewrite <- bpow_plus; apply bpow_le; lia|apply Rmult_le_compat_l; [apply bpow_ge_0|change (bpow radix2 (-3)) with (/ 8); lra]]. }
  pose proof (rn64_rel _ Big) as Q. apply Rabs_le_inv in Q. rewrite Rabs_pos_eq in Q by nra. nra.
Qed.

(** the largest *)
Lemma max_val (l : list f64) : (forall x, In x l -> is_finite x = true /\ 0 <= B2R x) -> forall m, is_finite m = true -> 0 <= B2R m ->
  let r := fold_left (fun m x => std_max x m) l m in is_finite r = true /\ B2R m <= B2R r /\ (forall x, In x l -> B2R x <= B2R r) /\ (r = m \/ In r l).
Proof.
  induction l as [|x l IH]; intros H m Fm Pm; cbn [fold_left].
  - split; trivial. split; [lra|]. split; [easy|now left].
  - destruct (H x (or_introl eq_refl)) as (Fx & Px). destruct (std_max_fin x m Fx Fm) as (F1 & E1).
    destruct (IH (fun y I => H y (or_intror I)) (std_max x m) F1) as (A1 & A2 & A3 & A4); [rewrite E1; eapply Rle_trans; [exact Px|apply Rmax_l]|].
    pose proof (Rmax_l (B2R x) (B2R m)). pose proof (Rmax_r (B2R x) (B2R m)). rewrite E1 in A2. split; trivial. split; [lra|]. split.
    + intros y [<-|I]; [lra|now apply A3].
    + destruct A4 as [A4|A4]; [|right; now right]. rewrite A4. unfold std_max. destruct (Bltb x m); [now left|right; now left].
Qed.

Definition inv (k : Z) (rms : list f64) : Prop := length rms = nAnt /\ Forall (rok k) rms /\ exists w, In w rms /\ bpow radix2 (-3 * k) <= B2R w.

Lemma combine_in (next rms : list f64) w : length next = length rms -> In w rms -> exists x, In x next /\ In (x, w) (combine next rms).
Proof.
  revert rms. induction next as [|y next IH]; intros [|z rms] Hl I; try discriminate; [easy|]. injection Hl as Hl. destruct I as [->|I].
  - exists y. split; now left.
  - destruct (IH rms Hl I) as (x & I1 & I2). exists x. split; now right.
Qed.

Lemma iteration_inv k rms : (0 <= k < 100)%Z -> inv k rms -> exists rms' p, rms_iteration nAnt meas rms = Ok (rms', p) /\ inv (k + 1) rms'.
Proof.
  intros Hk (Hr & Ha & w & Iw & Hw). unfold rms_iteration. destruct (mapM_all (next_rms nAnt meas rms) (pos (u - 1)) (seq 0 nAnt)) as (next & E & Ln & Hnx).
  { intros i I. apply in_seq in I. apply (next_pos k); trivial; lia. }
  rewrite E. cbn [bind]. eexists. eexists. split; [reflexivity|]. rewrite seq_length in Ln.
  set (f := fun '(x, old) => add64 (mul64 x lit_0_8) (mul64 old lit_0_2)). set (rms1 := map f (combine next rms)).
  assert (Ef : forall x old, f (x, old) = decay (x, old)) by reflexivity.
  rewrite Forall_forall in Ha, Hnx.
  assert (R1 : forall y, In y rms1 -> pos u y).
  { intros y I. apply in_map_iff in I. destruct I as ([x old] & <- & I). rewrite Ef. apply (decay_pos k); [lia|apply Hnx; now apply in_combine_l in I|apply Ha; now apply in_combine_r in I]. }
  destruct (max_val rms1) with (m := zero64) as (M1 & M2 & M3 & M4); [intros y I; destruct (R1 y I) as (A & B); split; [exact A|lra]|reflexivity|cbn; lra|].
  set (mx := fold_left (fun m x => std_max x m) rms1 zero64) in *.
  assert (Big : bpow radix2 (-3 * (k + 1)) <= B2R mx).
  { destruct (combine_in next rms w) as (x & I1 & I2); [lia|trivial|]. assert (I3 : In (f (x, w)) rms1) by now apply in_map.
    specialize (M3 _ I3). rewrite Ef in M3. destruct (decay_pos k x w) as (_ & D); [lia|now apply Hnx|now apply Ha|].
    replace (-3 * (k + 1))%Z with (-3 * k + -3)%Z by lia. rewrite bpow_plus. change (bpow radix2 (-3)) with (/ 8). lra. }
  pose proof (bpow_gt_0 radix2 (-3 * (k + 1))) as G0.
  assert (Imx : In mx rms1) by (destruct M4 as [M4|M4]; trivial; exfalso; rewrite M4 in Big; cbn [B2R zero64] in Big; unfold zero64 in Big; cbn [B2R] in Big; lra).
  destruct (R1 mx Imx) as (_ & Rmx).
  destruct lits as (_ & _ & (F5 & R5)). assert (P5 : pos 0 lit_1e_5) by (split; trivial; change (bpow radix2 0) with 1; lra).
  destruct (mul_pos u 0 mx lit_1e_5) as (T1 & T2); [now apply R1|trivial|lia|]. set (th := mul64 mx lit_1e_5) in *.
  assert (Th : B2R mx * bpow radix2 (-17) <= B2R th <= B2R mx).
  { rewrite T2. assert (Q : bpow radix2 (-800) <= Rabs (B2R mx * B2R lit_1e_5)).
    { rewrite Rabs_pos_eq by nra. apply Rle_trans with (bpow radix2 (-3 * (k + 1)) * bpow radix2 (-17)); [rewrite <- bpow_plus; apply bpow_le; lia|].
      apply Rmult_le_compat; try apply bpow_ge_0; trivial. change (bpow radix2 (-17)) with (/ 131072). lra. }
    apply rn64_rel in Q. apply Rabs_le_inv in Q. rewrite Rabs_pos_eq in Q by nra. replace (bpow radix2 (-17)) with (/ 131072) by (cbn; lra). nra. }
  assert (Lr : length rms1 = nAnt) by (unfold rms1; rewrite map_length, combine_length; lia).
  split; [rewrite map_length; exact Lr|]. split.
  - apply Forall_forall. intros y I. apply in_map_iff in I. destruct I as (x & <- & I). destruct (R1 x I) as (Fx & Rx). destruct (Bltb x th) eqn:Ex.
    + split; [|left; reflexivity]. split; [reflexivity|]. cbn. split; [lra|apply bpow_ge_0].
    + split; [now split|]. right. apply Bltb_false in Ex; try (apply finite_nan; trivial; apply T1). rewrite !K_finite in Ex by (trivial; apply T1).
      apply Rle_trans with (B2R th); trivial. eapply Rle_trans; [|apply Th]. replace (-3 * (k + 1) - 17)%Z with (-3 * (k + 1) + -17)%Z by lia. rewrite bpow_plus.
      apply Rmult_le_compat_r; [apply bpow_ge_0|trivial].
  - exists mx. split; trivial. apply in_map_iff. exists mx. split; trivial. destruct (Bltb mx th) eqn:Ex; trivial. exfalso. apply Bltb_true in Ex.
    destruct Ex as (_ & _ & Ex). rewrite !K_finite in Ex by (trivial; apply T1). lra.
Qed.

Lemma loop_inv todo : forall k rms p, (0 <= k)%Z -> (k + Z.of_nat todo <= 100)%Z -> inv k rms -> exists k' rms', rms_loop todo nAnt meas rms p = Ok rms' /\ (0 <= k' <= 100)%Z /\ inv k' rms'.
Proof.
  induction todo as [|todo IH]; intros k rms p Hk Ht I; cbn [rms_loop]; [exists k, rms; repeat split; trivial; try lia; apply I|].
  destruct (Bltb lit_1e_6 p); [|exists k, rms; repeat split; trivial; try lia; apply I].
  destruct (iteration_inv k rms) as (rms' & p' & E & I'); [lia|trivial|]. rewrite E. cbn [bind]. apply (IH (k + 1)%Z); trivial; lia.
Qed.

Lemma loop_range : (0 < nAnt)%nat -> exists rms, rms_loop 100 nAnt meas (repeat one64 nAnt) one64 = Ok rms /\
  forall x, In x rms -> pos u x /\ (B2R x = 0 \/ bpow radix2 (-320) <= B2R x).
Proof.
  intros H0. destruct one64_val as (F1 & E1). destruct (loop_inv 100 0 (repeat one64 nAnt) one64) as (k' & rms & E & Hk & (_ & R & _)); [lia|lia| |].
  - split; [apply repeat_length|]. assert (B0 : 1 <= bpow radix2 u) by (change 1 with (bpow radix2 0); apply bpow_le; lia).
    assert (B1 : bpow radix2 (-3 * 0 - 17) <= 1) by (change 1 with (bpow radix2 0); apply bpow_le; lia). split.
    + apply Forall_forall. intros x I. apply repeat_spec in I. subst x. split; [split; trivial|right]; rewrite E1; lra.
    + exists one64. split; [destruct nAnt; [lia|now left]|]. rewrite E1. cbn. lra.
  - exists rms. split; trivial. intros x I. rewrite Forall_forall in R. destruct (R x I) as (P & Z). split; trivial. destruct Z as [Z|Z]; [now left|right].
    eapply Rle_trans; [|exact Z]. apply bpow_le. lia.
Qed.
End Rms.

(** ** The factor that a sample gets is finite *)
Lemma norm_finite u (m1 m2 : f64) : (0 <= u <= 900)%Z -> pos u m1 -> B2R m1 = 0 \/ bpow radix2 (-320) <= B2R m1 -> pos u m2 -> B2R m2 = 0 \/ bpow radix2 (-320) <= B2R m2 ->
  is_finite (if is0 (mul64 m1 m2) then zero64 else div64 one64 (mul64 m1 m2)) = true.
Proof.
  intros Hu (F1 & R1) Z1 (F2 & R2) Z2. destruct (is0 (mul64 m1 m2)) eqn:E0; trivial. pose proof (mult_ok m1 m2 F1 F2) as O. change (op_ok (mul64 m1 m2) (B2R m1 * B2R m2)) in O.
  assert (H0 : B2R m1 = 0 \/ B2R m2 = 0 -> False).
  { intros H. assert (Q : B2R m1 * B2R m2 = 0) by (destruct H as [->| ->]; ring). rewrite Q in O. destruct (op_ok_exact _ _ (zero64 : f64) O eq_refl eq_refl) as (A & B).
    apply (proj2 (is0_val _ A)) in B. congruence. }
  destruct Z1 as [Z1|Z1]; [exfalso; auto|]. destruct Z2 as [Z2|Z2]; [exfalso; auto|].
  assert (Low : bpow radix2 (-640) <= B2R m1 * B2R m2) by (change (-640)%Z with (-320 + -320)%Z; rewrite bpow_plus; apply Rmult_le_compat; try apply bpow_ge_0; trivial).
  destruct (is_finite (mul64 m1 m2)) eqn:F.
  - pose proof (op_value _ _ O F) as V. assert (Lv : bpow radix2 (-640) <= B2R (mul64 m1 m2)) by (rewrite V, <- (rne_bpow (p := 53) (e := 1024) (-640)) by lia; now apply rne_le).
    pose proof (bpow_gt_0 radix2 (-640)) as G. destruct one64_val as (G1 & G2).
    destruct (op_pos (div64 one64 (mul64 m1 m2)) (B2R one64 / B2R (mul64 m1 m2)) 640) as ((P & _) & _); trivial; [apply div_ok; trivial; lra| |lia].
    rewrite G2. split; [apply div_nn; lra|]. apply div_le; [lra|]. replace 1 with (bpow radix2 640 * bpow radix2 (-640)) by (rewrite <- bpow_plus; reflexivity).
    apply Rmult_le_compat_l; [apply bpow_ge_0|trivial].
  - destruct O as (On & _). destruct (mul64 m1 m2); try discriminate. reflexivity.
Qed.

(** ** Zero data *)
(** every finite component is zero *)
Definition null (v : cd) : Prop := forall im, is_finite (part im v) = true -> B2R (part im v) = 0.
Definition whole (v : cd) : Prop := is_finite (fst v) = true /\ is_finite (snd v) = true.

Lemma null_mul v f : is_finite f = true -> null v -> null (cmul v f).
Proof. intros F H im Fm. rewrite part_cmul in *. destruct (mul_finite_inv _ _ Fm) as (A & _). now destruct (mul_zero _ f A F (H im A)). Qed.

Lemma null_include l : (forall v, In v l -> null v) -> forall m, is_finite (value m) = true -> B2R (value m) = 0 -> (0 <= count m)%Z ->
  let m' := fold_left Include l m in is_finite (value m') = true /\ B2R (value m') = 0 /\ (count m <= count m' <= count m + Z.of_nat (length l))%Z /\
    ((exists v, In v l /\ whole v) -> (count m < count m')%Z).
Proof.
  induction l as [|v l IH]; intros Hl m Fm Vm Cm; cbn [fold_left length].
  - split; trivial. split; trivial. split; [lia|]. intros (v & [] & _).
  - assert (X : is_finite (value (Include m v)) = true /\ B2R (value (Include m v)) = 0 /\ (count m <= count (Include m v) <= count m + 1)%Z /\ (whole v -> (count m < count (Include m v))%Z)).
    { unfold Include, whole. destruct (is_finite (fst v)) eqn:F1; cbn [andb]; [destruct (is_finite (snd v)) eqn:F2|].
      - cbn [value count]. pose proof (Hl v (or_introl eq_refl)) as N. pose proof (N false F1) as Z1. pose proof (N true F2) as Z2. cbn [part] in Z1, Z2.
        destruct (mul_zero (fst v) (fst v) F1 F1 Z1) as (A1 & A2). destruct (mul_zero (snd v) (snd v) F2 F2 Z2) as (B1 & B2).
        destruct (op_ok_exact _ _ (zero64 : f64) (plus_ok (mul64 (fst v) (fst v)) (mul64 (snd v) (snd v)) A1 B1)) as (C1 & C2); [reflexivity|cbn; unfold zero64; cbn [B2R]; lra|].
        change (is_finite (add64 (mul64 (fst v) (fst v)) (mul64 (snd v) (snd v))) = true) in C1.
        change (B2R (add64 (mul64 (fst v) (fst v)) (mul64 (snd v) (snd v))) = B2R (mul64 (fst v) (fst v)) + B2R (mul64 (snd v) (snd v))) in C2.
        rewrite A2, B2 in C2. set (sq := add64 (mul64 (fst v) (fst v)) (mul64 (snd v) (snd v))) in *.
        destruct (op_ok_exact (add64 (value m) sq) _ (zero64 : f64) (plus_ok (value m) sq Fm C1)) as (D1 & D2); [reflexivity|cbn; unfold zero64; cbn [B2R]; lra|].
        split; trivial. split; [rewrite D2; lra|]. split; [lia|]. intros _. lia.
      - split; trivial. split; trivial. split; [lia|]. intros (_ & Q). discriminate.
      - split; trivial. split; trivial. split; [lia|]. intros (Q & _). discriminate. }
    destruct X as (X1 & X2 & X3 & X4). destruct (IH (fun w I => Hl w (or_intror I)) (Include m v) X1 X2) as (Y1 & Y2 & Y3 & Y4); [lia|].
    split; trivial. split; trivial. split; [lia|]. intros (w & [<-|I] & W); [specialize (X4 W); lia|]. assert (count (Include m v) < count (fold_left Include l (Include m v)))%Z by (apply Y4; eauto). lia.
Qed.

Lemma zero_of (x : f64) : is_finite x = true -> B2R x = 0 -> exists s, x = B754_zero s.
Proof.
  intros F E. destruct x as [s|s| |s m ex H]; try discriminate; [eauto|]. exfalso. cbn in E. apply eq_0_F2R in E. destruct s; discriminate.
Qed.

Lemma null_rms l : (forall v, In v l -> null v) -> (Z.of_nat (length l) <= 2 ^ 50)%Z ->
  let r := RMS (fold_left Include l no_meas) in
  (is_finite r = true /\ B2R r = 0 \/ is_nan r = true) /\ ((exists v, In v l /\ whole v) -> is_finite r = true /\ B2R r = 0).
Proof.
  intros Hl Ln. destruct (null_include l Hl no_meas) as (A1 & A2 & A3 & A4); [reflexivity|reflexivity|cbn; lia|]. cbn zeta.
  change (count no_meas) with 0%Z in *. set (m := fold_left Include l no_meas) in *. unfold RMS.
  destruct (ofZ_exact (p := 53) (e := 1024) (count m * 2)) as (F2 & E2); [lia|]. change (is_finite (of64 (count m * 2)) = true) in F2. change (B2R (of64 (count m * 2)) = IZR (count m * 2)) in E2.
  assert (Z : (0 < count m)%Z -> is_finite (sqrt64 (div64 (value m) (of64 (count m * 2)))) = true /\ B2R (sqrt64 (div64 (value m) (of64 (count m * 2)))) = 0).
  { intros P. destruct (div_zero (value m) (of64 (count m * 2)) A1 F2 A2) as (D1 & D2).
    - rewrite E2. apply IZR_neq. lia.
    - destruct (zero_of _ D1 D2) as (s & Q). rewrite Q. now destruct s. }
  destruct (Z.eq_dec (count m) 0) as [C0|C0].
  - split; [right|intros H; specialize (A4 H); lia]. rewrite C0. destruct (zero_of _ A1 A2) as (s & ->). now destruct s.
  - split; [left|intros _]; apply Z; lia.
Qed.

Lemma null_max l : (forall v, In v l -> null v) -> is0 (maxf (map local_max l)) = true.
Proof.
  intros Hl. destruct (maxf_local l) as (F & _ & _ & [Z|(v & I & C & E)]); apply is0_val; trivial.
  rewrite <- E. apply cnt_iff in C. destruct C as (C1 & C2). pose proof (Hl v I) as N. unfold val. pose proof (N false C1) as Q. cbn [part] in Q. rewrite Q.
  assert (Q2 : B2R (snd v) = 0) by (destruct C2 as [C2|C2]; [exact (N true C2)|now destruct (snd v)]). rewrite Q2, Rabs_R0. apply Rmax_left. lra.
Qed.

(** the changes keep zeros *)
Lemma sc_zero im f k : is_finite f = true -> forall v, is_finite (part im v) = true /\ B2R (part im v) = 0 -> is_finite (part im (sc f k v)) = true /\ B2R (part im (sc f k v)) = 0.
Proof.
  intros F. unfold sc. induction k as [|k IH]; intros v H; trivial. cbn [Nat.iter nat_rect]. rewrite part_cmul. destruct (IH v H) as (A & B). exact (mul_zero _ f A F B).
Qed.
Lemma sample_ops_zero nPol im r i ops : (forall o, In o ops -> is_finite (fac o) = true) -> forall v, is_finite (part im v) = true /\ B2R (part im v) = 0 ->
  is_finite (part im (sample_ops nPol ops r i v)) = true /\ B2R (part im (sample_ops nPol ops r i v)) = 0.
Proof.
  induction ops as [|o ops IH]; intros H v Hv; trivial. change (sample_ops nPol (o :: ops) r i v) with (sample_ops nPol ops r i (sc (fac o) (hits nPol o r i) v)).
  apply IH; [intros; apply H; now right|]. apply sc_zero; trivial. apply H. now left.
Qed.
Lemma slot_ops_zero nPol nChan nAnt j ops : (forall o, In o ops -> is_finite (fac o) = true /\ 1 <= B2R (fac o)) -> forall x : f32, is_finite x = true /\ B2R x = 0 ->
  is_finite (slot_ops nPol nChan nAnt ops j x) = true /\ B2R (slot_ops nPol nChan nAnt ops j x) = 0.
Proof.
  induction ops as [|o ops IH]; intros H x Hx; trivial. cbn [slot_ops fold_left]. apply IH; [intros; apply H; now right|].
  destruct (j =? slot nPol nChan nAnt o)%nat; trivial. destruct (H o (or_introl eq_refl)) as (F & G). destruct (to64_val x (proj1 Hx)) as (A & B).
  destruct (div_zero (to64 x) (fac o) A F) as (C & D); [rewrite B; apply Hx|lra|]. now apply to32_zero.
Qed.

Lemma rn32_unit x : 0 <= x <= 1 -> 0 <= rn32 x <= 1.
Proof.
  intros H. split; [apply rne_ge0; lra|]. assert (E : rn32 1 = 1) by (change 1 with (bpow radix2 0); apply (rne_bpow (p := 24) (e := 128)); lia).
  rewrite <- E. apply rne_le. lra.
Qed.

(** dividing by factors of at least one keeps small numbers small *)
Lemma slot_ops_small nPol nChan nAnt j ops : (forall o, In o ops -> is_finite (fac o) = true /\ 1 <= B2R (fac o)) -> forall x : f32, is_finite x = true /\ 0 <= B2R x <= 1 ->
  is_finite (slot_ops nPol nChan nAnt ops j x) = true /\ 0 <= B2R (slot_ops nPol nChan nAnt ops j x) <= 1.
Proof.
  induction ops as [|o ops IH]; intros H x Hx; trivial. cbn [slot_ops fold_left]. apply IH; [intros; apply H; now right|].
  destruct (j =? slot nPol nChan nAnt o)%nat; trivial. destruct (H o (or_introl eq_refl)) as (F & G). destruct (to64_val x (proj1 Hx)) as (A & B).
  destruct (op_pos (div64 (to64 x) (fac o)) (B2R (to64 x) / B2R (fac o)) 0) as ((P1 & P2) & _); [apply div_ok; trivial; lra| |lia|].
  - rewrite B. change (bpow radix2 0) with 1. split; [apply div_nn; lra|]. apply div_le; lra.
  - change (bpow radix2 0) with 1 in P2. destruct (to32_val _ P1) as (Q1 & Q2 & _); [rewrite Rabs_pos_eq by lra; pose proof (bpow_le radix2 0 127 ltac:(lia)) as W; change (bpow radix2 0) with 1 in W; lra|].
    split; trivial. rewrite Q2. apply rn32_unit. lra.
Qed.

Lemma steps_facs nPol nChan nAnt L ops : forall data, steps nPol nChan nAnt L ops data -> forall o, In o ops -> is_finite (fac o) = true /\ 1 <= B2R (fac o).
Proof.
  induction ops as [|o ops IH]; intros data St x I; [easy|]. destruct St as (_ & O & St). destruct I as [<-|I]; [|eapply IH; eauto].
  split; [apply O|]. eapply ok_ge. exact O.
Qed.

(** ** Antenna factors are finite *)
Lemma ant_range nPol nChan nAnt p (D : list (drow cd)) A u : (p < nPol)%nat -> shaped nPol nChan nAnt D -> (0 < nAnt)%nat -> (Z.of_nat nAnt <= 2 ^ 50)%Z ->
  calculateAntennaeRMS nPol nChan p nAnt D = Ok A -> (0 <= u <= 900)%Z ->
  (u = 900%Z \/ (Z.of_nat (length D * nChan) <= 2 ^ 50)%Z /\ forall r i v, In r D -> nth_error (visibilities r) i = Some v -> null v) ->
  forall x, In x A -> pos u x /\ (B2R x = 0 \/ bpow radix2 (-320) <= B2R x).
Proof.
  intros Hp Hs H0 Hn E Hu Hx x I. unfold calculateAntennaeRMS in E. destruct (antenna_meas_eq nPol nChan nAnt p D Hp Hs) as (ms & Em & Lm & M). rewrite Em in E. cbn [bind] in E.
  destruct (loop_range nAnt ms u) as (A' & E' & R); trivial.
  - destruct Hx as [Hx|(Hl & Hx)]; [now left|right]. intros m Im Fm. apply In_nth_error in Im. destruct Im as (k & Nk). pose proof (nth_lt _ _ _ Nk) as Hk. rewrite Lm in Hk.
    rewrite M in Nk by trivial. injection Nk as <-. destruct (null_rms (of_pair nPol nChan nAnt p k D)) as ([(_ & Q)|Q] & _); trivial.
    + intros v Iv. unfold of_pair, crosses in Iv. apply in_flat_map in Iv. destruct Iv as (r & Ir & Iv). apply filter_In in Ir.
      destruct (_ =? k)%nat in Iv; [|easy]. unfold of_pol in Iv. apply in_flat_map in Iv. destruct Iv as (ch & _ & Iv).
      destruct (nth_error (visibilities r) (ch * nPol + p)) as [w|] eqn:Nw; [|easy]. destruct Iv as [<-|[]]. eapply Hx; [apply Ir|exact Nw].
    + assert (G : (length (of_pair nPol nChan nAnt p k D) <= length D * nChan)%nat); [|lia]. unfold of_pair, crosses. clear. induction D as [|r D IH]; cbn [filter flat_map length]; [lia|].
      destruct (is_cross r); [|lia]. cbn [flat_map]. rewrite app_length. enough (length (of_pol nPol nChan p (visibilities r)) <= nChan)%nat by (destruct (_ =? k)%nat; cbn [length]; lia).
      unfold of_pol. rewrite <- (seq_length nChan 0) at 2. induction (seq 0 nChan) as [|ch l IHl]; cbn [flat_map length]; [lia|]. rewrite app_length.
      destruct (nth_error (visibilities r) (ch * nPol + p)); cbn [length]; lia.
    + exfalso. revert Fm Q. destruct (RMS _); cbn; discriminate.
  - rewrite E in E'. injection E' as <-. now apply R.
Qed.

Section Zero.
Context (fuel : nat) (e : encoder) (nPol nChan nAnt : nat) (d : option (nat -> Z)) (b : tbb cf) (meta : list f32) (sym : list nat) (L : f32) (r : nat) (row : drow cf).
Context (V : levels e L) (R : rows_of (nPol * nChan) b) (An : antennas_below nAnt b) (Hc : (0 < nChan)%nat) (Hf : (nChan + nAnt < fuel)%nat).
Context (Hm : (af_MetaDataCount (length b) nPol nChan nAnt <= length meta)%nat) (Hs : (SymbolCount (length b) nPol nChan <= length sym)%nat).
Context (Hb : (Z.of_nat (length b) <= 2 ^ 50)%Z) (Ha : (Z.of_nat nAnt <= 2 ^ 50)%Z) (N : nth_error b r = Some row).
Notation n := (nPol * nChan)%nat.

(** sample [i] is zero (or not finite) in every row, and is finite in some row *)
Definition nothing (i : nat) : Prop :=
  (forall r v im, In r b -> nth_error (visibilities r) i = Some v -> is_finite (part im v) = true -> B2R (part im v) = 0) /\
  exists r v, In r b /\ nth_error (visibilities r) i = Some v /\ is_finite (fst v) = true /\ is_finite (snd v) = true.

Lemma widen_null v : (forall im, is_finite (part im v) = true -> B2R (part im v) = 0) -> null (widen v).
Proof. intros H im F. rewrite part_widen in *. rewrite to64_finite in F. destruct (to64_val _ F) as (_ & E). rewrite E. now apply H. Qed.

Lemma of_wide i v : In v (of_chan i (map wide b)) -> exists r w, In r b /\ nth_error (visibilities r) i = Some w /\ v = widen w.
Proof.
  intros I. apply of_chan_In in I. destruct I as (r' & I & Nv). apply in_map_iff in I. destruct I as (r0 & <- & I). cbn [visibilities wide] in Nv.
  rewrite nth_error_map in Nv. destruct (nth_error (visibilities r0) i) as [w|] eqn:Nw; [|discriminate]. injection Nv as <-. eauto.
Qed.

Lemma nothing_rms i : nothing i -> is0 (chan_rms i (map wide b)) = true /\ is_finite (chan_rms i (map wide b)) = true /\ B2R (chan_rms i (map wide b)) = 0.
Proof.
  intros (H1 & r' & v & I & Nv & F1 & F2). destruct (null_rms (of_chan i (map wide b))) as (_ & Q).
  - intros w Iw. destruct (of_wide i w Iw) as (r0 & w0 & I0 & N0 & ->). apply widen_null. intros im. now apply (H1 r0 w0 im).
  - pose proof (of_chan_length i (map wide b)). rewrite map_length in *. lia.
  - destruct Q as (Q1 & Q2).
    + exists (widen v). split; [|split; cbn; now rewrite to64_finite]. apply of_chan_In. exists (wide r'). split; [now apply in_map|]. cbn [visibilities wide]. now rewrite nth_error_map, Nv.
    + fold (chan_rms i (map wide b)) in Q1, Q2. split; [|split; trivial]. now apply is0_val.
Qed.

Definition empty : Prop := (Z.of_nat (length b * nChan) <= 2 ^ 50)%Z /\
  forall r i v im, In r b -> nth_error (visibilities r) i = Some v -> is_finite (part im v) = true -> B2R (part im v) = 0.

Lemma zero_core : exists meta' sym' out, af_encode fuel e nPol nChan nAnt d b meta sym = Some (Ok (meta', sym')) /\
  af_roundtrip fuel e nPol nChan nAnt d b meta sym r = Some (Ok out) /\
  (empty -> forall p a x, (p < nPol)%nat -> (a < nAnt)%nat -> nth_error meta' (n + nAnt * p + a) = Some x -> is_finite x = true /\ 0 <= B2R x <= 1) /\
  forall i, (i < n)%nat -> nothing i -> (exists c, nth_error meta' i = Some c /\ is_finite c = true /\ B2R c = 0) /\
    forall v im a1 a2, nth_error (visibilities row) i = Some v -> is_finite (part im v) = true ->
      nth_error meta' (n + nAnt * (i mod nPol) + antenna1 row) = Some a1 -> is_finite a1 = true ->
      nth_error meta' (n + nAnt * (i mod nPol) + antenna2 row) = Some a2 -> is_finite a2 = true ->
      exists w, nth_error out i = Some w /\ is_finite (part im w) = true /\ B2R (part im w) = 0.
Proof.
  pose proof (lv_wf e L V) as W. pose proof (lv_max e L V) as EL. pose proof (lv_pos e L V) as PL. pose proof (levels_finite e L V) as FL.
  assert (Sh : shaped nPol nChan nAnt b) by (split; [exact R|exact An]).
  destruct (af_roundtrip_form nPol nChan nAnt e L b W EL FL PL Sh Hc) as (A & ops & HA & St & _ & Form).
  destruct (Form fuel d meta sym r row Hf Hm Hs N) as (meta' & sym' & out & E & C1 & C2 & Eo & _ & HO). clear Form.
  set (data := map wide b) in *. pose proof (steps_facs _ _ _ _ _ _ St) as Fo. pose proof (nth_error_In _ _ N) as Irow. destruct (An row Irow) as (A1 & A2).
  assert (Sh1 : shaped nPol nChan nAnt (data1 data)) by (apply remap_shaped; now apply wide_shaped).
  exists meta', sym', out. split; trivial. split; trivial. split.
  - intros (Hl & He) p a x Hp Hpa Nx. rewrite C2 in Nx by trivial. injection Nx as <-. unfold ant_meta. apply slot_ops_small; trivial.
    destruct (HA p Hp) as (Ep & Lp). destruct (ant_range nPol nChan nAnt p (data1 data) (A p) 0 Hp Sh1 ltac:(lia) Ha Ep ltac:(lia)) with (x := nth a (A p) zero64) as ((P1 & P2) & _).
    + right. split; [unfold data1, data; now rewrite !map_length|]. intros r1 i v I1 N1. unfold data1 in I1. apply in_map_iff in I1. destruct I1 as (r2 & <- & I1).
      cbn [visibilities remap] in N1. rewrite imap_nth in N1. unfold data in I1. apply in_map_iff in I1. destruct I1 as (r0 & <- & I0). cbn [visibilities wide] in N1. rewrite nth_error_map in N1.
      destruct (nth_error (visibilities r0) i) as [w|] eqn:Nw; [|discriminate]. cbn [option_map] in N1. injection N1 as <-.
      assert (Nu : null (widen w)) by (apply widen_null; intros im; now apply (He r0 i w im)).
      destruct (null_rms (of_chan i data)) as ([(Q1 & Q2)|Q] & _).
      * intros v Iv. destruct (of_wide i v Iv) as (r3 & w3 & I3 & N3 & ->). apply widen_null. intros im. now apply (He r3 i w3 im).
      * pose proof (of_chan_length i data). unfold data in *. rewrite map_length in *. lia.
      * unfold ch_norm. fold (chan_rms i data) in Q1, Q2. rewrite (proj2 (is0_val _ Q1) Q2). exact Nu.
      * fold (chan_rms i data) in Q. unfold ch_norm. destruct (is0 (chan_rms i data)); trivial. intros im Fm. exfalso. rewrite part_cdiv in Fm. revert Fm Q.
        destruct (chan_rms i data); try discriminate. destruct (part im (widen w)) as [| | |]; cbn; discriminate.
    + apply nth_In. lia.
    + change (bpow radix2 0) with 1 in P2. destruct (to32_val _ P1) as (Q1 & Q2 & _); [rewrite Rabs_pos_eq by lra; pose proof (bpow_le radix2 0 127 ltac:(lia)) as X; change (bpow radix2 0) with 1 in X; lra|].
      split; trivial. rewrite Q2. apply rn32_unit. lra.
  - intros i Hi Hz. destruct (nothing_rms i Hz) as (R0 & FR & ZR). fold data in R0, FR, ZR. destruct one64_val as (F1 & E1). destruct (stride_of nPol nChan i Hi) as (Hp & _ & _).
    assert (Nf : forall r0, In r0 b -> is_finite (ant_norm (A (i mod nPol)%nat) (wide r0)) = true).
    { intros r0 I0. destruct (An r0 I0) as (B1 & B2). destruct (HA (i mod nPol)%nat Hp) as (Ep & Lp).
      pose proof (ant_range nPol nChan nAnt (i mod nPol) (data1 data) (A (i mod nPol)%nat) 900 Hp Sh1 ltac:(lia) Ha Ep ltac:(lia) (or_introl eq_refl)) as Q.
      unfold ant_norm. cbn [antenna1 antenna2 wide]. destruct (Q (nth (antenna1 r0) (A (i mod nPol)%nat) zero64)) as (P1 & Z1); [apply nth_In; lia|].
      destruct (Q (nth (antenna2 r0) (A (i mod nPol)%nat) zero64)) as (P2 & Z2); [apply nth_In; lia|]. apply (norm_finite 900); trivial; lia. }
    assert (Cf : cfit nPol (to64 L) data A i = one64).
    { unfold cfit, channel_factor, chan_max. rewrite null_max; [now rewrite orb_true_r|]. intros v Iv. apply of_chan_In in Iv. destruct Iv as (r2 & I2 & N2). unfold crosses in I2. apply filter_In in I2.
      destruct I2 as (I2 & _). unfold data2 in I2. apply in_map_iff in I2. destruct I2 as (r1 & <- & I1). cbn [visibilities remap] in N2. rewrite imap_nth in N2.
      unfold data1 in I1. apply in_map_iff in I1. destruct I1 as (r3 & <- & I3). cbn [visibilities remap] in N2. rewrite imap_nth in N2. unfold data in I3. apply in_map_iff in I3.
      destruct I3 as (r0 & <- & I0). cbn [visibilities wide] in N2. rewrite nth_error_map in N2. destruct (nth_error (visibilities r0) i) as [w|] eqn:Nw; [|discriminate]. cbn [option_map] in N2. injection N2 as <-.
      apply null_mul; [exact (Nf r0 I0)|]. unfold ch_norm. fold data. rewrite R0. apply widen_null. intros im. now apply (proj1 Hz r0 w im). }
    assert (Zc : is_finite (chan_meta nPol nChan nAnt (to64 L) data A ops i) = true /\ B2R (chan_meta nPol nChan nAnt (to64 L) data A ops i) = 0).
    { unfold chan_meta. apply slot_ops_zero; trivial. destruct (to32_zero _ FR ZR) as (S1 & S2). destruct (to64_val _ S1) as (S3 & S4). rewrite Cf.
      destruct (div_zero (to64 (to32 (chan_rms i data))) one64 S3 F1) as (S5 & S6); [lra|lra|]. now apply to32_zero. }
    split; [eexists; split; [now apply C1|trivial]|]. intros v im a1 a2 Nv Fv Na1 Fa1 Na2 Fa2. destruct (HO i v im Nv) as (s & q & w & Es & Hs' & D & Nw & Pw). exists w. split; trivial.
    rewrite C2 in Na1, Na2 by (trivial; lia). injection Na1 as <-. injection Na2 as <-. destruct (to64_val _ (proj1 Zc)) as (G1 & G2). rewrite (proj2 Zc) in G2.
    destruct (mul_zero _ _ G1 (mul_f32_finite _ _ Fa1 Fa2) G2) as (G3 & G4). rewrite Pw. apply decode_zero; [|exact G3|now right].
    eapply enc_finite; [exact W| |exact Es|exact Hs'|exact D]. enough (Q : is_finite (part im (fin nPol (to64 L) data A ops (wide row) i (widen v))) = true /\ B2R (part im (fin nPol (to64 L) data A ops (wide row) i (widen v))) = 0)
      by (apply to32_zero; apply Q). unfold fin. apply sample_ops_zero; [intros o I; now apply Fo|]. rewrite Cf, !part_cmul. unfold ch_norm. rewrite R0, part_widen.
    destruct (to64_val _ Fv) as (K1 & K2). rewrite (proj1 Hz row v im Irow Nv Fv) in K2. destruct (mul_zero _ _ K1 (Nf row Irow) K2) as (K3 & K4). exact (mul_zero _ _ K3 F1 K4).
Qed.
End Zero.

(** ** Statements *)
Lemma af_zero_channel fuel e nPol nChan nAnt d b meta sym L r row i : levels e L -> rows_of (nPol * nChan) b -> antennas_below nAnt b -> (0 < nChan)%nat -> (nChan + nAnt < fuel)%nat ->
  (af_MetaDataCount (length b) nPol nChan nAnt <= length meta)%nat -> (SymbolCount (length b) nPol nChan <= length sym)%nat ->
  (Z.of_nat (length b) <= 2 ^ 50)%Z -> (Z.of_nat nAnt <= 2 ^ 50)%Z -> nth_error b r = Some row -> (i < nPol * nChan)%nat -> quiet i b -> seen i b ->
  exists meta' sym' out, af_encode fuel e nPol nChan nAnt d b meta sym = Some (Ok (meta', sym')) /\ af_roundtrip fuel e nPol nChan nAnt d b meta sym r = Some (Ok out) /\
    (exists c, nth_error meta' i = Some c /\ is_finite c = true /\ B2R c = 0) /\
    forall v im a1 a2, nth_error (visibilities row) i = Some v -> is_finite (part im v) = true ->
      nth_error meta' (nPol * nChan + nAnt * (i mod nPol) + antenna1 row) = Some a1 -> is_finite a1 = true ->
      nth_error meta' (nPol * nChan + nAnt * (i mod nPol) + antenna2 row) = Some a2 -> is_finite a2 = true ->
      exists w, nth_error out i = Some w /\ is_finite (part im w) = true /\ B2R (part im w) = 0.
Proof.
  intros V R An Hc Hf Hm Hs Hb Ha N Hi Q S.
  destruct (zero_core fuel e nPol nChan nAnt d b meta sym L r row V R An Hc Hf Hm Hs Hb Ha N) as (m & s & out & E & Eo & _ & H).
  exists m, s, out. split; trivial. split; trivial. apply (H i Hi). split; [exact Q|exact S].
Qed.

Lemma af_zero_block fuel e nPol nChan nAnt d b meta sym L r row : levels e L -> rows_of (nPol * nChan) b -> antennas_below nAnt b -> (0 < nChan)%nat -> (nChan + nAnt < fuel)%nat ->
  (af_MetaDataCount (length b) nPol nChan nAnt <= length meta)%nat -> (SymbolCount (length b) nPol nChan <= length sym)%nat ->
  (Z.of_nat (length b * nChan) <= 2 ^ 50)%Z -> (Z.of_nat nAnt <= 2 ^ 50)%Z -> nth_error b r = Some row -> (forall i, quiet i b) ->
  exists out, af_roundtrip fuel e nPol nChan nAnt d b meta sym r = Some (Ok out) /\
    forall i v im, nth_error (visibilities row) i = Some v -> is_finite (part im v) = true -> seen i b ->
      exists w, nth_error out i = Some w /\ is_finite (part im w) = true /\ B2R (part im w) = 0.
Proof.
  intros V R An Hc Hf Hm Hs Hb Ha N Q. assert (Hb' : (Z.of_nat (length b) <= 2 ^ 50)%Z) by nia.
  destruct (af_encode_form nPol nChan nAnt e L b (lv_wf e L V) (lv_max e L V) (levels_finite e L V) (lv_pos e L V)) as (A0 & ops0 & _ & _ & _ & Form); trivial; [now split|].
  destruct (Form fuel d meta sym Hf Hm Hs) as (m0 & s0 & E0 & _ & _ & _ & C0 & _).
  destruct (zero_core fuel e nPol nChan nAnt d b meta sym L r row V R An Hc Hf Hm Hs Hb' Ha N) as (m & s & out & E & Eo & G & H).
  rewrite E in E0. injection E0 as <- <-. exists out. split; trivial. intros i v im Nv Fv S.
  pose proof (nth_lt _ _ _ Nv) as Hi. rewrite (R row (nth_error_In _ _ N)) in Hi. destruct (stride_of nPol nChan i Hi) as (Hp & _ & _). destruct (An row (nth_error_In _ _ N)) as (A1 & A2).
  assert (He : empty nChan b) by (split; [exact Hb|intros r1 i1 v1 im1; apply (Q i1)]).
  destruct (H i Hi (conj (Q i) S)) as (_ & K). pose proof (C0 _ _ Hp A1) as N1. pose proof (C0 _ _ Hp A2) as N2.
  eapply K; [exact Nv|exact Fv|exact N1|eapply G; [exact He| | |exact N1]; trivial|exact N2|eapply G; [exact He| | |exact N2]; trivial].
Qed.
