(** The bisection of [invCumulative]: it ends for every cumulative function, and
    its accuracy.  Proof file. *)
From Coq Require Import Reals Lra Psatz.
From Flocq Require Import Core.
From Verif Require Import Base Floats FloatLemmas StochasticEncoder EncoderTables.
Local Open Scope R_scope.

Notation mid lo hi := (mul80 (add80 lo hi) half80).
Notation rn80 := (rne (p := 64) (e := 16384)).
Notation emin80 := (3 - 16384 - 64)%Z.

Lemma half80_val : is_finite half80 = true /\ B2R half80 = / 2 /\ Bsign half80 = false.
Proof.
  destruct (dy_exact (p := 64) (e := 16384) 1 (-1) ltac:(lia) ltac:(lia) ltac:(lia)) as (A & B). unfold half80.
  split; [exact A|]. split; [rewrite B; cbn; lra|]. apply sign_gt0; [exact A|]. rewrite B. cbn. lra.
Qed.

Lemma int80_val z : (Z.abs z < 2 ^ 64)%Z -> is_finite (of80 z) = true /\ B2R (of80 z) = IZR z.
Proof. apply ofZ_exact. Qed.

Lemma zero80_val : is_finite (of80 0) = true /\ B2R (of80 0) = 0 /\ Bsign (of80 0) = false.
Proof. split; [reflexivity|]. split; reflexivity. Qed.

Lemma one80_val : is_finite (of80 1) = true /\ B2R (of80 1) = 1 /\ Bsign (of80 1) = false.
Proof.
  destruct (int80_val 1 ltac:(lia)) as (A & B). split; [exact A|]. split; [exact B|]. apply sign_gt0; [exact A|]. rewrite B. lra.
Qed.

(** a finite, not negative number *)
Definition pos80 (x : f80) : Prop := is_finite x = true /\ Bsign x = false.

Lemma pos80_ge x : pos80 x -> 0 <= B2R x.
Proof. intros (_ & H). now apply sign_ge0. Qed.
Lemma pos80_inj x y : pos80 x -> pos80 y -> B2R x = B2R y -> x = y.
Proof. intros (A & B) (C & D) E. apply B2R_Bsign_inj; congruence. Qed.

Lemma bpow_lt_B80 k : (k < 16384)%Z -> bpow radix2 k < bpow radix2 16384.
Proof. apply bpow_lt. Qed.

Lemma sum_pos lo hi : pos80 lo -> pos80 hi -> B2R hi <= bpow radix2 16000 -> B2R lo <= B2R hi ->
  pos80 (add80 lo hi) /\ B2R (add80 lo hi) = rn80 (B2R lo + B2R hi) /\ 2 * B2R lo <= B2R (add80 lo hi) <= 2 * B2R hi.
Proof.
  intros Pl Ph Hb Hle. pose proof (pos80_ge lo Pl) as Gl.
  assert (E : B2R (add80 lo hi) = rn80 (B2R lo + B2R hi) /\ is_finite (add80 lo hi) = true).
  { destruct (op_ok_finite (add80 lo hi) (B2R lo + B2R hi)) as (A & B); [apply plus_ok; [apply Pl|apply Ph]| |now split].
    apply Rle_lt_trans with (bpow radix2 16001).
    - assert (Q : rn80 (B2R lo + B2R hi) <= rn80 (bpow radix2 16001)).
      { apply rne_le. change 16001%Z with (1 + 16000)%Z. rewrite bpow_plus. change (bpow radix2 1) with 2. lra. }
      rewrite rne_bpow in Q by lia. rewrite Rabs_pos_eq; trivial. apply rne_ge0. lra.
    - apply bpow_lt. lia. }
  destruct E as (E & F).
  assert (S2 : forall x : f80, rn80 (2 * B2R x) = 2 * B2R x) by (intros x; exact (rne_scale x 1 ltac:(lia))).
  split; [|split; trivial].
  - split; trivial. pose proof (Bplus_correct 64 16384 _ _ mode_NE lo hi (proj1 Pl) (proj1 Ph)) as C. cbn [round_mode] in C.
    fold (rn80 (B2R lo + B2R hi)) in C. rewrite Rlt_bool_true in C.
    + destruct C as (_ & _ & C). fold (add80 lo hi) in C. rewrite C. destruct (Rcompare_spec (B2R lo + B2R hi) 0) as [Q|Q|Q]; trivial; [lra|].
      rewrite (proj2 Pl). reflexivity.
    + rewrite <- E. pose proof (B2R_bounds (add80 lo hi)) as Bd. apply Rabs_def1; lra.
  - rewrite E. split.
    + rewrite <- (S2 lo). apply rne_le. lra.
    + rewrite <- (S2 hi). apply rne_le. lra.
Qed.

Lemma mid_pos lo hi : pos80 lo -> pos80 hi -> B2R hi <= bpow radix2 16000 -> B2R lo <= B2R hi ->
  pos80 (mid lo hi) /\ B2R lo <= B2R (mid lo hi) <= B2R hi /\ B2R (mid lo hi) = rn80 (rn80 (B2R lo + B2R hi) * / 2).
Proof.
  intros Pl Ph Hb Hle. destruct (sum_pos lo hi Pl Ph Hb Hle) as (Ps & Es & Bs). destruct half80_val as (Fh & Eh & Sh).
  pose proof (pos80_ge lo Pl) as Gl.
  set (t := add80 lo hi) in *. assert (E : B2R (mul80 t half80) = rn80 (B2R t * / 2) /\ is_finite (mul80 t half80) = true).
  { destruct (op_ok_finite (mul80 t half80) (B2R t * B2R half80)) as (A & B); [apply mult_ok; [apply Ps|trivial]| |rewrite Eh in B; now split].
    rewrite Eh. apply rne_abs_lt with hi. rewrite Rabs_pos_eq; lra. }
  destruct E as (E & F). split; [|split].
  - split; trivial. pose proof (Bmult_correct 64 16384 _ _ mode_NE t half80) as C. cbn [round_mode] in C. fold (rn80 (B2R t * B2R half80)) in C.
    rewrite Rlt_bool_true in C.
    + destruct C as (_ & _ & C). fold (mul80 t half80) in C. rewrite C.
      * now rewrite (proj2 Ps), Sh.
      * now apply finite_nan.
    + rewrite Eh, <- E. pose proof (B2R_bounds (mul80 t half80)) as Bd. apply Rabs_def1; lra.
  - rewrite E. split; [rewrite <- (rne_id lo)|rewrite <- (rne_id hi)]; apply rne_le; lra.
  - now rewrite E, Es.
Qed.

Lemma mid_same x : pos80 x -> B2R x <= bpow radix2 16000 -> mid x x = x.
Proof.
  intros P H. destruct (mid_pos x x P P H ltac:(lra)) as (Pm & B & _). apply pos80_inj; trivial. lra.
Qed.

Lemma INR_above r : exists n, r < INR n.
Proof.
  destruct (archimed r) as (A & _). exists (Z.to_nat (up r)). rewrite INR_IZR_INZ. destruct (Z_le_dec 0 (up r)) as [H|H].
  - rewrite Z2Nat.id by trivial. lra.
  - assert (IZR (up r) < 0) by (apply IZR_lt; lia). assert (0 <= IZR (Z.of_nat (Z.to_nat (up r)))) by (apply IZR_le; lia). lra.
Qed.

(** two numbers differ by at least the smallest one *)
Lemma spacing (x y : f80) : B2R x < B2R y -> B2R x + bpow radix2 emin80 <= B2R y.
Proof.
  assert (M : forall z : f80, exists k, B2R z = IZR k * bpow radix2 emin80).
  { intros z. pose proof (generic_format_B2R 64 16384 z) as G. change (SpecFloat.fexp 64 16384) with (FLT_exp emin80 64) in G.
    apply generic_format_FIX_FLT in G. apply FIX_format_generic in G. destruct G as [f E1 E2]. exists (Fnum f). rewrite E1. unfold F2R. now rewrite E2. }
  destruct (M x) as (kx & Ex), (M y) as (ky & Ey). rewrite Ex, Ey. intros H. pose proof (bpow_gt_0 radix2 emin80) as P.
  assert (L : (kx < ky)%Z) by (apply lt_IZR; apply Rmult_lt_reg_r with (bpow radix2 emin80); trivial).
  assert (L' : IZR kx + 1 <= IZR ky) by (rewrite <- plus_IZR; apply IZR_le; lia). nra.
Qed.

(** ** The loops end *)
Section Ends.
Context (F : f80 -> f80) (c err : f80).
Notation bs := (bisect F c err).

Lemma bisect_more fuel : forall lo hi error stuck x, bs fuel lo hi error stuck = Some x -> bs (S fuel) lo hi error stuck = Some x.
Proof.
  induction fuel as [|fuel IH]; intros lo hi error stuck x H; [discriminate|]. remember (S fuel) as n eqn:En. cbn [bisect]. rewrite En in H. cbn [bisect] in H.
  destruct (10 <? _)%nat; trivial. destruct (Bltb err _); trivial. now apply IH.
Qed.

Lemma double_up_more fuel : forall x y, double_up F c fuel x = Some y -> double_up F c (S fuel) x = Some y.
Proof.
  induction fuel as [|fuel IH]; intros x y H; [discriminate|]. remember (S fuel) as n eqn:En. cbn [double_up]. rewrite En in H. cbn [double_up] in H.
  destruct (Bltb _ c); trivial. now apply IH.
Qed.

(** once the middle is an end of the interval nothing changes any more *)
Lemma spin lo hi k : let x := mid lo hi in (if Bltb c (F x) then lo else x) = lo -> (if Bltb c (F x) then x else hi) = hi ->
  forall stuck, (10 < k + stuck)%nat -> bs (S k) lo hi (Babs (sub80 (F x) c)) stuck = Some x.
Proof.
  intros x El Eh. induction k as [|k IH]; intros stuck H; remember (Babs (sub80 (F x) c)) as e eqn:Ee.
  - cbn [bisect]. fold x. rewrite <- Ee. destruct (Bleb e e) eqn:B.
    + destruct (Nat.ltb_spec 10 (S stuck)) as [|Q]; [trivial|lia].
    + destruct (is_nan e) eqn:N; [|rewrite Bleb_refl in B by trivial; discriminate]. rewrite Bltb_nan_r by trivial. reflexivity.
  - remember (S k) as n eqn:En. cbn [bisect]. fold x. rewrite <- Ee, El, Eh. destruct (Bleb e e) eqn:B.
    + destruct (10 <? S stuck)%nat; trivial. destruct (Bltb err e); trivial. apply IH. lia.
    + destruct (is_nan e) eqn:N; [|rewrite Bleb_refl in B by trivial; discriminate]. rewrite Bltb_nan_r by trivial. reflexivity.
Qed.

Lemma bisect_ends n : forall lo hi error stuck, pos80 lo -> pos80 hi -> B2R lo <= B2R hi <= bpow radix2 16000 ->
  B2R hi - B2R lo < INR n * bpow radix2 emin80 -> exists fuel x, bs fuel lo hi error stuck = Some x.
Proof.
  induction n as [|n IH]; intros lo hi error stuck Pl Ph Hb Hn; [cbn [INR] in Hn; lra|]. rewrite S_INR in Hn.
  destruct (mid_pos lo hi Pl Ph) as (Px & Bx & _); [lra|lra|]. set (x := mid lo hi) in *.
  set (lo' := if Bltb c (F x) then lo else x). set (hi' := if Bltb c (F x) then x else hi).
  set (e := Babs (sub80 (F x) c)). set (st := if Bleb error e then S stuck else O).
  assert (Go : (exists fuel y, bs fuel lo' hi' e st = Some y) -> exists fuel y, bs fuel lo hi error stuck = Some y).
  { intros (fuel & y & H). exists (S fuel). cbn [bisect]. fold x. fold e. fold st. fold lo' hi'. destruct (10 <? st)%nat; [eauto|]. destruct (Bltb err e); eauto. }
  apply Go. clear Go.
  assert (Fix : mid lo' hi' = x -> exists fuel y, bs fuel lo' hi' e st = Some y).
  { intros E. exists 12%nat, x. unfold e. rewrite <- E. apply spin; [| |lia]; rewrite E; unfold lo', hi'; destruct (Bltb c (F x)); reflexivity. }
  unfold lo', hi' in *. destruct (Bltb c (F x)).
  - destruct (Rle_lt_or_eq_dec _ _ (proj2 Bx)) as [L|E].
    + apply IH; trivial; [lra|]. pose proof (spacing x hi L). lra.
    + apply Fix. exact (f_equal (fun z => mid lo z) (pos80_inj x hi Px Ph E)).
  - destruct (Rle_lt_or_eq_dec _ _ (proj1 Bx)) as [L|E].
    + apply IH; trivial; [lra|]. pose proof (spacing lo x L). lra.
    + apply Fix. exact (f_equal (fun z => mid z hi) (pos80_inj x lo Px Pl (eq_sym E))).
Qed.

Lemma bisect_total lo hi error stuck : pos80 lo -> pos80 hi -> B2R lo <= B2R hi <= bpow radix2 16000 ->
  exists fuel x, bs fuel lo hi error stuck = Some x.
Proof.
  intros Pl Ph Hb. destruct (INR_above ((B2R hi - B2R lo) / bpow radix2 emin80)) as (n & Hn).
  apply (bisect_ends n); trivial. pose proof (bpow_gt_0 radix2 emin80) as P. apply Rmult_lt_compat_r with (r := bpow radix2 emin80) in Hn; trivial.
  unfold Rdiv in Hn. rewrite Rmult_assoc, Rinv_l, Rmult_1_r in Hn by lra. lra.
Qed.

(** powers of two *)
Definition pw (k : Z) : f80 := dy 1 k.
Lemma pw_val k : (0 <= k <= 16000)%Z -> pos80 (pw k) /\ B2R (pw k) = bpow radix2 k.
Proof.
  intros H. destruct (dy_exact (p := 64) (e := 16384) 1 k ltac:(lia) ltac:(lia) ltac:(lia)) as (A & B). fold (pw k) in A, B.
  rewrite Rmult_1_l in B. split; trivial. split; trivial. apply sign_gt0; trivial. rewrite B. apply bpow_gt_0.
Qed.

Lemma pw_double k : (0 <= k < 16000)%Z -> mul80 (pw k) (of80 2) = pw (k + 1) /\ mul80 (pw (k + 1)) half80 = pw k.
Proof.
  intros H. destruct (pw_val k ltac:(lia)) as (P & E). destruct (pw_val (k + 1) ltac:(lia)) as (P' & E').
  destruct (int80_val 2 ltac:(lia)) as (F2 & E2). destruct half80_val as (Fh & Eh & Sh).
  assert (S2 : Bsign (of80 2) = false) by (apply sign_gt0; trivial; rewrite E2; lra).
  assert (Ed : bpow radix2 (k + 1) = 2 * bpow radix2 k) by (rewrite bpow_plus; cbn; lra).
  assert (G : forall a b w : f80, pos80 a -> pos80 b -> pos80 w -> B2R w <> 0 -> B2R a * B2R b = B2R w -> mul80 a b = w).
  { intros a b w Pa Pb Pw Nz Q. destruct (op_ok_exact _ _ w (mult_ok a b (proj1 Pa) (proj1 Pb)) (proj1 Pw) (eq_sym Q)) as (A & B). fold (mul80 a b) in A, B.
    apply pos80_inj; trivial; [|congruence]. split; trivial. apply sign_gt0; trivial. rewrite B, Q. pose proof (pos80_ge w Pw). lra. }
  split.
  - apply G; trivial; [now split|rewrite E'; pose proof (bpow_gt_0 radix2 (k + 1)); lra|]. rewrite E, E', E2, Ed. lra.
  - apply G; trivial; [now split|rewrite E; pose proof (bpow_gt_0 radix2 k); lra|]. rewrite E, E', Eh, Ed. lra.
Qed.

Lemma pw_0 : of80 1 = pw 0.
Proof. reflexivity. Qed.

(** [double_up] stops at the first power that is not below [c] *)
Lemma double_up_ends k : forall j, (0 <= j)%Z -> (j + Z.of_nat k < 16000)%Z -> Bltb (F (pw (j + Z.of_nat k + 1))) c = false ->
  exists fuel i, double_up F c fuel (pw j) = Some (pw (i + 1)) /\ (j <= i <= j + Z.of_nat k)%Z /\
    Bltb (F (pw (i + 1))) c = false /\ (i = j \/ Bltb (F (pw i)) c = true).
Proof.
  induction k as [|k IH]; intros j Hj Hk Hc; (destruct (Bltb (F (pw (j + 1))) c) eqn:B;
    [|exists 1%nat, j; split; [cbn [double_up]; rewrite (proj1 (pw_double j ltac:(lia))), B; reflexivity|split; [lia|split; [exact B|now left]]]]).
  - rewrite Nat2Z.inj_0, Z.add_0_r in Hc. congruence.
  - destruct (IH (j + 1)%Z ltac:(lia) ltac:(lia)) as (fuel & i & E & Hi & Q1 & Q2); [now replace (j + 1 + Z.of_nat k + 1)%Z with (j + Z.of_nat (S k) + 1)%Z by lia|].
    exists (S fuel), i. split; [|split; [lia|split; [exact Q1|]]].
    + cbn [double_up]. now rewrite (proj1 (pw_double j ltac:(lia))), B.
    + right. destruct Q2 as [->|Q2]; trivial.
Qed.

Lemma search_more fuel x : search F c err fuel = Some x -> search F c err (S fuel) = Some x.
Proof.
  unfold search. destruct (Bltb _ c); [|apply bisect_more]. destruct (double_up F c fuel (of80 1)) as [y|] eqn:E; [|discriminate].
  rewrite (double_up_more _ _ _ E). apply bisect_more.
Qed.
End Ends.

Lemma more_le {A} (f : nat -> option A) : (forall n x, f n = Some x -> f (S n) = Some x) -> forall n m x, (n <= m)%nat -> f n = Some x -> f m = Some x.
Proof. intros H n m x L. induction L; auto. Qed.

Lemma search_ends F c err k : (0 <= k < 16000)%Z -> Bltb (F (pw k)) c = false -> exists fuel x, search F c err fuel = Some x.
Proof.
  intros Hk Hc. destruct (Bltb (F (of80 1)) c) eqn:B.
  - assert (0 < k)%Z by (destruct (Z.eq_dec k 0) as [->|]; [rewrite <- pw_0 in Hc; congruence|lia]).
    destruct (double_up_ends F c (Z.to_nat (k - 1)) 0 ltac:(lia) ltac:(lia)) as (f1 & i & E & Hi & _); [now replace (0 + Z.of_nat (Z.to_nat (k - 1)) + 1)%Z with k by lia|].
    destruct (pw_val i ltac:(lia)) as (Pi & Ei). destruct (pw_val (i + 1) ltac:(lia)) as (Pj & Ej).
    destruct (bisect_total F c err (pw i) (pw (i + 1)) (pw (i + 1)) 0 Pi Pj) as (f2 & x & E2).
    { rewrite Ei, Ej. split; apply bpow_le; lia. }
    exists (f1 + f2)%nat, x. unfold search. rewrite B, pw_0.
    rewrite (more_le (fun n => double_up F c n (pw 0)) (fun n => double_up_more F c n _) f1 (f1 + f2) _ ltac:(lia) E).
    rewrite (proj2 (pw_double i ltac:(lia))).
    apply (more_le (fun n => bisect F c err n (pw i) (pw (i + 1)) (pw (i + 1)) 0) (fun n => bisect_more F c err n _ _ _ _) f2 (f1 + f2) _ ltac:(lia) E2).
  - destruct (bisect_total F c err (of80 0) (of80 1) (of80 1) 0) as (f & x & E).
    + split; apply zero80_val.
    + split; apply one80_val.
    + rewrite (proj1 (proj2 zero80_val)), (proj1 (proj2 one80_val)). split; [lra|]. change 1 with (bpow radix2 0). apply bpow_le. lia.
    + exists f, x. unfold search. now rewrite B.
Qed.

Lemma inv_more F err fuel : forall c x, invCumulative F err fuel c = Some x -> invCumulative F err (S fuel) c = Some x.
Proof.
  induction fuel as [|fuel IH]; intros c x H; [discriminate|]. remember (S fuel) as n eqn:En. cbn [invCumulative]. rewrite En in H. cbn [invCumulative] in H.
  destruct (Bltb c half80).
  - destruct (invCumulative F err fuel (sub80 (of80 1) c)) as [y|] eqn:E; [|discriminate]. rewrite (IH _ _ E). exact H.
  - destruct (Beqb c half80); trivial. destruct (Beqb c (of80 1)); trivial. destruct (Bltb (of80 1) c); trivial. rewrite En. now apply search_more.
Qed.
