(** Accuracy of the bisection of [invCumulative].  Proof file. *)
From Coq Require Import Reals Lra Psatz.
From Flocq Require Import Core.
From Verif Require Import Base Floats FloatLemmas StochasticEncoder EncoderTables InvCumulativeProofs.
Local Open Scope R_scope.

Lemma rn80_err x : Rabs x <= 16 -> Rabs (rn80 x - x) <= bpow radix2 (-59).
Proof.
  intros H. pose proof (rne_err (p := 64) (e := 16384) x) as E. change (- (64))%Z with (-64)%Z in E.
  assert (H1 : bpow radix2 (2 - 16384 - 64) <= bpow radix2 (-64)) by (apply bpow_le; lia).
  replace (bpow radix2 (-59)) with (32 * bpow radix2 (-64)) by (change 32 with (bpow radix2 5); rewrite <- bpow_plus; reflexivity).
  pose proof (bpow_gt_0 radix2 (-64)) as P. set (t := bpow radix2 (-64)) in *. set (y := bpow radix2 (2 - 16384 - 64)) in *.
  assert (t * Rabs x <= t * 16) by (apply Rmult_le_compat_l; lra). lra.
Qed.

Lemma mid_near lo hi : pos80 lo -> pos80 hi -> B2R lo <= B2R hi <= 8 -> Rabs (B2R (mid lo hi) - (B2R lo + B2R hi) / 2) <= 2 * bpow radix2 (-59).
Proof.
  intros Pl Ph H. pose proof (pos80_ge lo Pl) as Gl.
  assert (H8 : B2R hi <= bpow radix2 16000) by (apply Rle_trans with (bpow radix2 3); [cbn; lra|apply bpow_le; lia]).
  destruct (mid_pos lo hi Pl Ph H8 (proj1 H)) as (_ & Bm & E). rewrite E.
  pose proof (rn80_err (B2R lo + B2R hi) ltac:(rewrite Rabs_pos_eq; lra)) as E1. destruct (sum_pos lo hi Pl Ph H8 (proj1 H)) as (_ & Es & Bs).
  rewrite Es in Bs. pose proof (rn80_err (rn80 (B2R lo + B2R hi) * / 2) ltac:(rewrite Rabs_pos_eq; lra)) as E2.
  apply Rabs_le_inv in E1, E2. apply Rabs_le. lra.
Qed.

Section Accuracy.
Context (F : f80 -> f80) (c err : f80) (Phi : R -> R) (delta s A B r : R).
Hypotheses (Fc : is_finite c = true) (Hc : 0 <= B2R c <= 1) (Fe : is_finite err = true) (He : 0 <= B2R err).
Hypotheses (HA : 0 <= A) (HB : B <= 8) (Hs : 0 < s <= 1) (Hd : 0 <= delta).
Hypothesis HF : forall x, pos80 x -> A <= B2R x <= B -> is_finite (F x) = true /\ Rabs (B2R (F x)) <= 2 /\ Rabs (B2R (F x) - Phi (B2R x)) <= delta.
Hypothesis HP : forall x y, A <= x <= y -> y <= B -> s * (y - x) <= Phi y - Phi x.
Hypotheses (Hr : A <= r <= B) (Er : Phi r = B2R c).

Notation cerr y := (Babs (sub80 (F y) c)).
Notation t := (bpow radix2 (-59)).

Lemma cerr_val y : pos80 y -> A <= B2R y <= B -> is_finite (cerr y) = true /\ Rabs (B2R (cerr y) - Rabs (B2R (F y) - B2R c)) <= t.
Proof.
  intros Py By. destruct (HF y Py By) as (Ff & Bf & _). apply Rabs_le_inv in Bf.
  assert (H : Rabs (B2R (F y) - B2R c) <= 3) by (apply Rabs_le; lra).
  destruct (op_ok_bounded _ _ 2 (minus_ok (F y) c Ff Fc)) as (G1 & G2 & _); [cbn; lra|lia|]. fold (sub80 (F y) c) in G1, G2. split.
  - now rewrite is_finite_Babs.
  - rewrite B2R_Babs, G2. eapply Rle_trans; [apply Rabs_triang_inv2|]. apply rn80_err. lra.
Qed.

Definition small (lo hi : f80) : Prop := s * (B2R hi - B2R lo) <= 4 * delta + 8 * t.

Definition inside (lo hi : f80) : Prop := pos80 lo /\ pos80 hi /\ A <= B2R lo /\ B2R lo <= B2R hi /\ B2R hi <= B /\ B2R (F lo) <= B2R c <= B2R (F hi).

Lemma mid_in lo hi : inside lo hi -> pos80 (mid lo hi) /\ B2R lo <= B2R (mid lo hi) <= B2R hi /\ Rabs (B2R (mid lo hi) - (B2R lo + B2R hi) / 2) <= 2 * t.
Proof.
  intros (Pl & Ph & I1 & I2 & I3 & _).
  assert (H8 : B2R hi <= bpow radix2 16000) by (apply Rle_trans with (bpow radix2 3); [cbn; lra|apply bpow_le; lia]).
  destruct (mid_pos lo hi Pl Ph H8 I2) as (Pm & Bm & _). split; trivial. split; trivial. apply mid_near; trivial. lra.
Qed.

Lemma closer_hi lo hi : inside lo hi -> ~ small lo hi -> B2R c <= B2R (F (mid lo hi)) -> B2R (cerr (mid lo hi)) < B2R (cerr hi).
Proof.
  intros I N G. destruct (mid_in lo hi I) as (Pm & Bm & Em). destruct I as (Pl & Ph & I1 & I2 & I3 & I4 & I5). unfold small in N. apply Rnot_le_lt in N.
  set (x := mid lo hi) in *. destruct (HF x Pm ltac:(lra)) as (_ & _ & Dx). destruct (HF hi Ph ltac:(lra)) as (_ & _ & Dh).
  destruct (cerr_val x Pm ltac:(lra)) as (_ & Cx). destruct (cerr_val hi Ph ltac:(lra)) as (_ & Ch).
  rewrite (Rabs_pos_eq (B2R (F x) - _)) in Cx by lra. rewrite (Rabs_pos_eq (B2R (F hi) - _)) in Ch by lra.
  pose proof (HP (B2R x) (B2R hi) ltac:(lra) ltac:(lra)) as S. apply Rabs_le_inv in Dx, Dh, Cx, Ch, Em.
  assert (s * ((B2R hi - B2R lo) / 2 - 2 * t) <= s * (B2R hi - B2R x)) by (apply Rmult_le_compat_l; lra).
  assert (s * (2 * t) <= 1 * (2 * t)) by (apply Rmult_le_compat_r; pose proof (bpow_gt_0 radix2 (-59)); lra). lra.
Qed.

Lemma closer_lo lo hi : inside lo hi -> ~ small lo hi -> B2R (F (mid lo hi)) <= B2R c -> B2R (cerr (mid lo hi)) < B2R (cerr lo).
Proof.
  intros I N G. destruct (mid_in lo hi I) as (Pm & Bm & Em). destruct I as (Pl & Ph & I1 & I2 & I3 & I4 & I5). unfold small in N. apply Rnot_le_lt in N.
  set (x := mid lo hi) in *. destruct (HF x Pm ltac:(lra)) as (_ & _ & Dx). destruct (HF lo Pl ltac:(lra)) as (_ & _ & Dh).
  destruct (cerr_val x Pm ltac:(lra)) as (_ & Cx). destruct (cerr_val lo Pl ltac:(lra)) as (_ & Ch).
  rewrite (Rabs_minus_sym (B2R (F x))), (Rabs_pos_eq (B2R c - _)) in Cx by lra. rewrite (Rabs_minus_sym (B2R (F lo))), (Rabs_pos_eq (B2R c - _)) in Ch by lra.
  pose proof (HP (B2R lo) (B2R x) ltac:(lra) ltac:(lra)) as S. apply Rabs_le_inv in Dx, Dh, Cx, Ch, Em.
  assert (s * ((B2R hi - B2R lo) / 2 - 2 * t) <= s * (B2R x - B2R lo)) by (apply Rmult_le_compat_l; lra).
  assert (s * (2 * t) <= 1 * (2 * t)) by (apply Rmult_le_compat_r; pose proof (bpow_gt_0 radix2 (-59)); lra). lra.
Qed.

(** distance to the root *)
Lemma near_root lo hi x : inside lo hi -> B2R lo <= x <= B2R hi -> s * Rabs (x - r) <= s * (B2R hi - B2R lo) + delta.
Proof.
  intros (Pl & Ph & I1 & I2 & I3 & I4 & I5) Bx. destruct (HF lo Pl ltac:(lra)) as (_ & _ & Dl). destruct (HF hi Ph ltac:(lra)) as (_ & _ & Dh).
  apply Rabs_le_inv in Dl, Dh.
  assert (Q1 : s * (B2R lo - r) <= delta).
  { destruct (Rle_or_lt (B2R lo) r) as [H|H]; [assert (s * (B2R lo - r) <= s * 0) by (apply Rmult_le_compat_l; lra); lra|].
    pose proof (HP r (B2R lo) ltac:(lra) ltac:(lra)). lra. }
  assert (Q2 : s * (r - B2R hi) <= delta).
  { destruct (Rle_or_lt r (B2R hi)) as [H|H]; [assert (s * (r - B2R hi) <= s * 0) by (apply Rmult_le_compat_l; lra); lra|].
    pose proof (HP (B2R hi) r ltac:(lra) ltac:(lra)). lra. }
  assert (s * (x - B2R lo) <= s * (B2R hi - B2R lo)) by (apply Rmult_le_compat_l; lra).
  assert (s * (B2R hi - x) <= s * (B2R hi - B2R lo)) by (apply Rmult_le_compat_l; lra).
  unfold Rabs. destruct (Rcase_abs (x - r)); lra.
Qed.

Lemma near_value x : pos80 x -> A <= B2R x <= B -> B2R (cerr x) <= B2R err -> s * Rabs (B2R x - r) <= B2R err + delta + t.
Proof.
  intros Px Bx H. destruct (HF x Px Bx) as (_ & _ & D). destruct (cerr_val x Px Bx) as (_ & Cx). apply Rabs_le_inv in Cx, D.
  assert (Q : Rabs (B2R (F x) - B2R c) <= B2R err + t) by lra. apply Rabs_le_inv in Q.
  unfold Rabs. destruct (Rcase_abs (B2R x - r)).
  - pose proof (HP (B2R x) r ltac:(lra) ltac:(lra)). lra.
  - pose proof (HP r (B2R x) ltac:(lra) ltac:(lra)). lra.
Qed.

(** what is known about the stored error *)
Definition known (lo hi error : f80) (stuck : nat) : Prop :=
  small lo hi \/ ((stuck <= 3)%nat /\ (error = cerr lo \/ error = cerr hi)) \/
  ((stuck <= 4)%nat /\ is_finite error = true /\ B2R (cerr lo) <= B2R error /\ B2R (cerr hi) <= B2R error).

Lemma bisect_accurate fuel : forall lo hi error stuck x, inside lo hi -> known lo hi error stuck -> bisect F c err fuel lo hi error stuck = Some x ->
  pos80 x /\ B2R lo <= B2R x <= B2R hi /\ s * Rabs (B2R x - r) <= B2R err + 5 * delta + 8 * t.
Proof.
  pose proof (bpow_gt_0 radix2 (-59)) as Pt.
  induction fuel as [|fuel IH]; intros lo hi error stuck x I Kn H; [discriminate|]. cbn [bisect] in H.
  destruct (mid_in lo hi I) as (Pm & Bm & Em). pose proof (closer_hi lo hi I) as CH. pose proof (closer_lo lo hi I) as CL. set (m := mid lo hi) in *.
  pose proof I as (Pl & Ph & I1 & I2 & I3 & I4 & I5).
  destruct (HF m Pm ltac:(lra)) as (Fm & _ & Dm). destruct (cerr_val m Pm ltac:(lra)) as (Fe' & Cm).
  destruct (cerr_val lo Pl ltac:(lra)) as (Fel & _). destruct (cerr_val hi Ph ltac:(lra)) as (Feh & _).
  set (lo' := if Bltb c (F m) then lo else m) in *. set (hi' := if Bltb c (F m) then m else hi) in *.
  set (st := if Bleb error (cerr m) then S stuck else O) in *.
  assert (I' : inside lo' hi' /\ B2R lo <= B2R lo' /\ B2R hi' <= B2R hi).
  { unfold lo', hi'. destruct (Bltb c (F m)) eqn:Q.
    - apply Bltb_true in Q. destruct Q as (_ & _ & Q). rewrite !K_finite in Q by trivial. unfold inside. repeat split; trivial; try apply Pl; try apply Pm; lra.
    - apply Bltb_false in Q; try (now apply finite_nan). rewrite !K_finite in Q by trivial. unfold inside. repeat split; trivial; try apply Ph; try apply Pm; lra. }
  destruct I' as (I' & Bl' & Bh').
  assert (Nle : forall e' : f80, is_finite e' = true -> B2R (cerr m) < B2R e' -> Bleb e' (cerr m) = false).
  { intros e' Fe1 L. destruct (Bleb e' (cerr m)) eqn:Q; trivial. apply Bleb_true in Q. destruct Q as (_ & _ & Q). rewrite !K_finite in Q by trivial. lra. }
  assert (Le : forall e' : f80, is_finite e' = true -> Bleb e' (cerr m) = true -> B2R e' <= B2R (cerr m)).
  { intros e' Fe1 Q. apply Bleb_true in Q. destruct Q as (_ & _ & Q). rewrite !K_finite in Q by trivial. lra. }
  assert (Kn' : small lo hi \/ (known lo' hi' (cerr m) st /\ (st <= 4)%nat)).
  { destruct (Rle_lt_dec (s * (B2R hi - B2R lo)) (4 * delta + 8 * t)) as [S|NS]; [now left|]; assert (NS' : ~ small lo hi) by (unfold small; lra). right. specialize (CH NS'). specialize (CL NS').
    destruct Kn as [S|[(Hst & Kn)|(Hst & Fer & K1 & K2)]]; [contradiction| |].
    - unfold lo', hi', st in *. destruct (Bltb c (F m)) eqn:Q.
      + apply Bltb_true in Q. destruct Q as (_ & _ & Q). rewrite !K_finite in Q by trivial. specialize (CH ltac:(lra)). destruct Kn as [-> | ->].
        * destruct (Bleb (cerr lo) (cerr m)) eqn:G; (split; [|lia]); right; [right|left].
          -- apply Le in G; trivial. repeat split; trivial; try lia; lra.
          -- split; [lia|now right].
        * rewrite Nle by trivial. split; [|lia]. right. left. split; [lia|now right].
      + apply Bltb_false in Q; try (now apply finite_nan). rewrite !K_finite in Q by trivial. specialize (CL Q). destruct Kn as [-> | ->].
        * rewrite Nle by trivial. split; [|lia]. right. left. split; [lia|now left].
        * destruct (Bleb (cerr hi) (cerr m)) eqn:G; (split; [|lia]); right; [right|left].
          -- apply Le in G; trivial. repeat split; trivial; try lia; lra.
          -- split; [lia|now left].
    - assert (G : Bleb error (cerr m) = false).
      { apply Nle; trivial. destruct (Bltb c (F m)) eqn:Q.
        - apply Bltb_true in Q. destruct Q as (_ & _ & Q). rewrite !K_finite in Q by trivial. specialize (CH ltac:(lra)). lra.
        - apply Bltb_false in Q; try (now apply finite_nan). rewrite !K_finite in Q by trivial. specialize (CL Q). lra. }
      unfold st. rewrite G. split; [|lia]. right. left. split; [lia|]. unfold lo', hi'. destruct (Bltb c (F m)); [now right|now left]. }
  assert (Out : Some m = Some x -> small lo hi \/ B2R (cerr m) <= B2R err -> pos80 x /\ B2R lo <= B2R x <= B2R hi /\ s * Rabs (B2R x - r) <= B2R err + 5 * delta + 8 * t).
  { intros E [S|L]; injection E as <-; (split; [trivial|split; [trivial|]]).
    - unfold small in S. pose proof (near_root lo hi (B2R m) I Bm). lra.
    - pose proof (near_value m Pm ltac:(lra) L). lra. }
  destruct (Nat.ltb_spec 10 st) as [G|G].
  { apply Out; trivial. destruct Kn' as [S|(_ & L)]; [now left|lia]. }
  destruct (Bltb err (cerr m)) eqn:Q.
  - destruct (IH lo' hi' (cerr m) st x I') as (R1 & R2 & R3); trivial.
    + destruct Kn' as [S|(L & _)]; trivial. left. unfold small in *. assert (s * (B2R hi' - B2R lo') <= s * (B2R hi - B2R lo)) by (apply Rmult_le_compat_l; lra). lra.
    + split; trivial. split; [lra|trivial].
  - apply Out; trivial. right. apply Bltb_false in Q; try (now apply finite_nan). rewrite !K_finite in Q by trivial. exact Q.
Qed.

(** the first step, whatever the stored error is *)
Lemma first_step fuel lo hi error stuck x : inside lo hi -> (stuck <= 2)%nat -> bisect F c err fuel lo hi error stuck = Some x ->
  pos80 x /\ B2R lo <= B2R x <= B2R hi /\ s * Rabs (B2R x - r) <= B2R err + 5 * delta + 8 * t.
Proof.
  pose proof (bpow_gt_0 radix2 (-59)) as Pt.
  intros I Hst H. destruct fuel as [|fuel]; [discriminate|]. cbn [bisect] in H.
  destruct (mid_in lo hi I) as (Pm & Bm & Em). set (m := mid lo hi) in *. pose proof I as (Pl & Ph & I1 & I2 & I3 & I4 & I5).
  destruct (HF m Pm ltac:(lra)) as (Fm & _ & Dm). destruct (cerr_val m Pm ltac:(lra)) as (Fe' & Cm).
  set (st := if Bleb error (cerr m) then S stuck else O) in *. assert (Hst' : (st <= 3)%nat) by (unfold st; destruct (Bleb error _); lia).
  destruct (Nat.ltb_spec 10 st) as [G|G]; [lia|]. destruct (Bltb err (cerr m)) eqn:Q.
  - destruct (Bltb c (F m)) eqn:Q'.
    + apply Bltb_true in Q'. destruct Q' as (_ & _ & Q'). rewrite !K_finite in Q' by trivial.
      destruct (bisect_accurate fuel lo m (cerr m) st x) as (R1 & R2 & R3); trivial; [unfold inside; repeat split; try apply Pl; try apply Pm; lra|right; left; split; [trivial|now right]|].
      split; trivial. split; [lra|trivial].
    + apply Bltb_false in Q'; try (now apply finite_nan). rewrite !K_finite in Q' by trivial.
      destruct (bisect_accurate fuel m hi (cerr m) st x) as (R1 & R2 & R3); trivial; [unfold inside; repeat split; try apply Ph; try apply Pm; lra|right; left; split; [trivial|now left]|].
      split; trivial. split; [lra|trivial].
  - injection H as <-. split; trivial. split; trivial. apply Bltb_false in Q; try (now apply finite_nan). rewrite !K_finite in Q by trivial.
    pose proof (near_value m Pm ltac:(lra) Q). lra.
Qed.
End Accuracy.
