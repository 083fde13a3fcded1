(** [cumulative] and [invCumulative] for an accurate error function.  Proof file. *)
From Coq Require Import Reals Lra Psatz Lia.
From Flocq Require Import Core.
From Verif Require Import Base Floats FloatLemmas StochasticEncoder EncoderTables InvCumulativeProofs InvAccuracy NormalSpec NormalProofs.
Local Open Scope R_scope.

Lemma bp k n : bpow radix2 (k + n) = bpow radix2 k * bpow radix2 n.
Proof. apply bpow_plus. Qed.

Lemma root2 : 1.4142 < sqrt 2 < 1.4143.
Proof.
  split.
  - rewrite <- (sqrt_square 1.4142) by lra. apply sqrt_lt_1; lra.
  - rewrite <- (sqrt_square 1.4143) by lra. apply sqrt_lt_1; lra.
Qed.

Lemma sqrt2l_val : is_finite sqrt2l = true /\ Rabs (B2R sqrt2l - sqrt 2) <= bpow radix2 (-62).
Proof.
  destruct (int80_val 2 ltac:(lia)) as (F2 & E2). destruct (Bsqrt_correct 64 16384 _ _ mode_NE (of80 2)) as (A & B & _).
  fold sqrt2l in A, B. split.
  - rewrite B. reflexivity.
  - rewrite A, E2. cbn [round_mode]. fold (rn80 (sqrt 2)). pose proof (rne_err (p := 64) (e := 16384) (sqrt 2)) as E. pose proof root2 as R2.
    change (- (64))%Z with (-64)%Z in E. rewrite (Rabs_pos_eq (sqrt 2)) in E by lra.
    assert (H1 : bpow radix2 (2 - 16384 - 64) <= bpow radix2 (-64)) by (apply bpow_le; lia).
    change (bpow radix2 (-62)) with (bpow radix2 (2 + -64)). rewrite bp. change (bpow radix2 2) with 4.
    pose proof (bpow_gt_0 radix2 (-64)) as P. set (t := bpow radix2 (-64)) in *. set (y := bpow radix2 (2 - 16384 - 64)) in *. nra.
Qed.

Lemma rn64_err x : Rabs x <= 6 -> Rabs (rne (p := 53) (e := 1024) x - x) <= bpow radix2 (-53) * Rabs x + bpow radix2 (-100).
Proof.
  intros H. pose proof (rne_err (p := 53) (e := 1024) x) as E. change (- (53))%Z with (-53)%Z in E.
  assert (bpow radix2 (2 - 1024 - 53) <= bpow radix2 (-100)) by (apply bpow_le; lia). lra.
Qed.

Section Inv.
Context (Phi : R -> R) (N : normal_cdf Phi) (erf : f64 -> f64) (He : erf_accurate Phi erf).
Notation F := (cumulative erf).
Notation u := (bpow radix2 (-59)).

Lemma u_pos : 0 < u.
Proof. apply bpow_gt_0. Qed.

(** the argument given to the error function *)
Lemma erf_arg x : pos80 x -> B2R x <= 8 -> let a := to64 (div80 x sqrt2l) in
  is_finite a = true /\ 0 <= B2R a <= 6 /\ Rabs (sqrt 2 * B2R a - B2R x) <= 520 * u.
Proof.
  intros P H a. pose proof (pos80_ge x P) as G. destruct sqrt2l_val as (Fs & Es). pose proof root2 as R2. pose proof u_pos as Pu.
  assert (Eu : bpow radix2 (-62) = u / 8) by (change (-59)%Z with (3 + -62)%Z; rewrite bp; change (bpow radix2 3) with 8; lra). rewrite Eu in Es.
  assert (U1 : u <= / 1000000000) by (apply Rle_trans with (bpow radix2 (-30)); [apply bpow_le; lia|cbn; lra]).
  set (sg := B2R sqrt2l) in *. apply Rabs_le_inv in Es.
  assert (Is : / 1.41431 <= / sg <= / 1.41419) by (split; apply Rinv_le_contravar; lra).
  assert (Q : 0 <= B2R x / sg <= 5.66) by (unfold Rdiv; split; [apply Rmult_le_pos; lra|apply Rle_trans with (8 * / 1.41419); [apply Rmult_le_compat; lra|lra]]).
  destruct (op_ok_bounded _ _ 4 (div_ok x sqrt2l (proj1 P) Fs ltac:(fold sg; lra))) as (Fd & Ed & _); [change (bpow radix2 4) with 16; fold sg; rewrite Rabs_pos_eq; lra|lia|].
  fold (div80 x sqrt2l) in Fd, Ed. set (d := div80 x sqrt2l) in *. fold sg in Ed.
  pose proof (rn80_err (B2R x / sg) ltac:(rewrite Rabs_pos_eq; lra)) as Ee. rewrite <- Ed in Ee.
  assert (Gd : 0 <= B2R d) by (rewrite Ed; apply rne_ge0; lra). apply Rabs_le_inv in Ee.
  destruct (op_ok_bounded _ _ 4 (conv_ok (p' := 53) (e' := 1024) d Fd)) as (Fa & Ea & _); [change (bpow radix2 4) with 16; rewrite Rabs_pos_eq; lra|lia|].
  change (conv d) with a in Fa, Ea.
  pose proof (rn64_err (B2R d) ltac:(rewrite Rabs_pos_eq; lra)) as Ee2. rewrite <- Ea, (Rabs_pos_eq (B2R d)) in Ee2 by lra.
  assert (Eu3 : bpow radix2 (-53) = 64 * u) by (change (-53)%Z with (6 + -59)%Z; rewrite bp; change (bpow radix2 6) with 64; lra).
  assert (Eu4 : bpow radix2 (-100) <= u) by (apply bpow_le; lia). rewrite Eu3 in Ee2.
  assert (Ga : 0 <= B2R a) by (rewrite Ea; now apply rne_ge0). apply Rabs_le_inv in Ee2.
  assert (64 * u * B2R d <= 64 * u * 5.67) by (apply Rmult_le_compat_l; lra).
  split; [exact Fa|]. split; [lra|].
  assert (Ax : Rabs (B2R a - B2R x / sg) <= 364 * u + u) by (apply Rabs_le; lra).
  replace (sqrt 2 * B2R a - B2R x) with (sqrt 2 * (B2R a - B2R x / sg) + (sqrt 2 - sg) * (B2R x / sg)) by (field; lra).
  apply Rle_trans with (1 := Rabs_triang _ _). rewrite !Rabs_mult, (Rabs_pos_eq (sqrt 2)), (Rabs_pos_eq (B2R x / sg)) by lra.
  assert (sqrt 2 * Rabs (B2R a - B2R x / sg) <= 1.4143 * (365 * u)) by (apply Rmult_le_compat; try lra; apply Rabs_pos).
  assert (Rabs (sqrt 2 - sg) * (B2R x / sg) <= (u / 8) * 6) by (apply Rmult_le_compat; try lra; [apply Rabs_pos|apply Rabs_le; lra]).
  lra.
Qed.

Lemma cumulative_near x : pos80 x -> B2R x <= 8 -> is_finite (F x) = true /\ Rabs (B2R (F x)) <= 2 /\ Rabs (B2R (F x) - Phi (B2R x)) <= 1024 * u.
Proof.
  intros P H. destruct (erf_arg x P H) as (Fa & Ba & Ea). unfold cumulative. set (a := to64 (div80 x sqrt2l)) in *.
  destruct (He a Fa Ba) as (Fe & Ee). set (e := erf a) in *. pose proof u_pos as Pu.
  assert (U1 : u <= / 1000000000) by (apply Rle_trans with (bpow radix2 (-30)); [apply bpow_le; lia|cbn; lra]).
  assert (Eu : bpow radix2 (-50) = 512 * u) by (change (-50)%Z with (9 + -59)%Z; rewrite bp; change (bpow radix2 9) with 512; lra). rewrite Eu in Ee.
  pose proof (cdf_bounds Phi N (sqrt 2 * B2R a)) as Bp. pose proof (cdf_bounds Phi N (B2R x)) as Bp'.
  assert (Dp : Rabs (Phi (sqrt 2 * B2R a) - Phi (B2R x)) <= 260 * u).
  { apply Rabs_le_inv in Ea. destruct (Rle_or_lt (B2R x) (sqrt 2 * B2R a)) as [L|L].
    - pose proof (cdf_lip Phi N _ _ L). pose proof (cdf_le Phi N _ _ L). rewrite Rabs_pos_eq; lra.
    - pose proof (cdf_lip Phi N _ _ (Rlt_le _ _ L)). pose proof (cdf_le Phi N _ _ (Rlt_le _ _ L)). rewrite Rabs_left1; lra. }
  apply Rabs_le_inv in Ee, Dp. set (w := Phi (sqrt 2 * B2R a)) in *.
  destruct (conv_widen (p' := 64) (e' := 16384) e ltac:(lia) ltac:(lia) Fe) as (Fw & Ew). fold (to80 e) in Fw, Ew.
  destruct half80_val as (Fh & Eh & _).
  destruct (op_ok_bounded _ _ 1 (mult_ok half80 (to80 e) Fh Fw)) as (Fm & Em & _); [rewrite Eh, Ew; change (bpow radix2 1) with 2; apply Rabs_le; lra|lia|].
  fold (mul80 half80 (to80 e)) in Fm, Em. rewrite Eh, Ew in Em.
  pose proof (rn80_err (/ 2 * B2R e) ltac:(apply Rabs_le; lra)) as E1. rewrite <- Em in E1. apply Rabs_le_inv in E1.
  set (m := mul80 half80 (to80 e)) in *.
  destruct (op_ok_bounded _ _ 1 (plus_ok half80 m Fh Fm)) as (Fr & Er & Br); [rewrite Eh; change (bpow radix2 1) with 2; apply Rabs_le; lra|lia|].
  fold (add80 half80 m) in Fr, Er, Br. rewrite Eh in Er.
  pose proof (rn80_err (/ 2 + B2R m) ltac:(apply Rabs_le; lra)) as E2. rewrite <- Er in E2. apply Rabs_le_inv in E2.
  split; [exact Fr|]. split; [change 2 with (bpow radix2 1); exact Br|]. apply Rabs_le. lra.
Qed.

Lemma default_err_val : is_finite default_err = true /\ 0 <= B2R default_err <= 0.88 * bpow radix2 (-43).
Proof.
  destruct (dy_exact (p := 64) (e := 16384) 7922816251426434 (-96) ltac:(lia) ltac:(lia) ltac:(lia)) as (A & B). fold default_err in A, B.
  split; [exact A|]. rewrite B. change (-96)%Z with (-53 + -43)%Z. rewrite bp. pose proof (bpow_gt_0 radix2 (-43)) as P.
  assert (0 <= 7922816251426434 * bpow radix2 (-53) <= 0.88) by (cbn; lra). set (t := bpow radix2 (-43)) in *. nra.
Qed.

Lemma pw3 : B2R (pw 3) = 8 /\ B2R (pw 2) = 4 /\ B2R (pw 1) = 2 /\ B2R (pw 0) = 1.
Proof.
  destruct (pw_val 3 ltac:(lia)) as (_ & ->). destruct (pw_val 2 ltac:(lia)) as (_ & ->).
  destruct (pw_val 1 ltac:(lia)) as (_ & ->). destruct (pw_val 0 ltac:(lia)) as (_ & ->). cbn. lra.
Qed.

Lemma mid_6 : mid (pw 2) (pw 3) = of80 6 /\ mid (pw 2) (of80 6) = of80 5.
Proof. split; apply B2SF_inj; vm_compute; reflexivity. Qed.

Lemma not_less x c : is_finite (F x) = true -> is_finite c = true -> B2R c <= B2R (F x) -> Bltb (F x) c = false.
Proof.
  intros A B C. destruct (Bltb (F x) c) eqn:E; trivial. apply Bltb_true in E. destruct E as (_ & _ & E). rewrite !K_finite in E by trivial. lra.
Qed.

Context (c : f80) (Fc : is_finite c = true) (Hc : / 2 + 2048 * u <= B2R c <= 1 - / 140000).

(** one bisection with the error bound of [first_step] *)
Lemma accurate_in lo hi B s error stuck fuel x r : pos80 lo -> pos80 hi -> B2R lo <= B2R hi -> B2R hi <= B -> B <= 8 -> 0 < s <= 1 -> s <= density B ->
  B2R (F lo) <= B2R c <= B2R (F hi) -> 0 <= r <= B -> Phi r = B2R c -> (stuck <= 2)%nat ->
  bisect F c default_err fuel lo hi error stuck = Some x -> pos80 x /\ s * Rabs (B2R x - r) <= 0.96 * bpow radix2 (-43).
Proof.
  intros Pl Ph Hlh HhB HB Hs Hsd Hcc Hr Er Hst E. pose proof u_pos as Pu. destruct default_err_val as (Fd & Bd). pose proof (pos80_ge lo Pl) as Gl.
  destruct (first_step F c default_err Phi (1024 * u) s 0 B r Fc ltac:(lra) Fd (proj1 Bd) HB Hs ltac:(lra)) with (fuel := fuel) (lo := lo) (hi := hi) (error := error) (stuck := stuck) (x := x) as (Q1 & Q2 & Q3).
  - intros y Py By. apply cumulative_near; trivial. lra.
  - intros y y' H1 H2. apply (cdf_slope Phi N B); trivial.
  - trivial.
  - trivial.
  - unfold inside. repeat split; try apply Pl; try apply Ph; lra.
  - trivial.
  - trivial.
  - split; [exact Q1|]. assert (Eu : bpow radix2 (-43) = 65536 * u) by (change (-43)%Z with (16 + -59)%Z; rewrite bp; change (bpow radix2 16) with 65536; lra).
    rewrite Eu in *. lra.
Qed.

Lemma root_exists : exists r, 0 <= r <= 4.5 /\ Phi r = B2R c.
Proof. pose proof u_pos. apply (quantile_up Phi N). lra. Qed.

Definition near_quantile (x z : R) : Prop := Rabs (x - z) <= bpow radix2 (-25) * Rabs z + bpow radix2 (-29).

Lemma bpow_vals : bpow radix2 (-43) = / 8796093022208 /\ bpow radix2 (-25) = / 33554432 /\ bpow radix2 (-29) = / 536870912.
Proof. cbn. lra. Qed.

Lemma case_small lo hi fuel x r : pos80 lo -> pos80 hi -> B2R lo <= B2R hi -> B2R hi <= 4 -> B2R (F lo) <= B2R c <= B2R (F hi) ->
  0 <= r -> Phi r = B2R c -> bisect F c default_err fuel lo hi hi 0 = Some x -> pos80 x /\ near_quantile (B2R x) r.
Proof.
  intros Pl Ph H1 H2 H3 Hr Er E. pose proof u_pos as Pu. pose proof density_4 as D. destruct (cumulative_near hi Ph ltac:(lra)) as (_ & _ & Ch). apply Rabs_le_inv in Ch.
  assert (U1 : u <= / 1000000000000) by (apply Rle_trans with (bpow radix2 (-40)); [apply bpow_le; lia|cbn; lra]).
  assert (Br : r <= 65 / 16).
  { apply Rnot_lt_le. intros L. pose proof (cdf_slope Phi N (65 / 16) (/ 16384) (B2R hi) (65 / 16) D ltac:(pose proof (pos80_ge hi Ph); lra) ltac:(lra)) as S.
    pose proof (cdf_le Phi N (65 / 16) r ltac:(lra)). lra. }
  destruct (accurate_in lo hi (65 / 16) (/ 16384) hi 0 fuel x r) as (Px & Ex); trivial; try lra; try lia. split; [exact Px|].
  unfold near_quantile. destruct bpow_vals as (V1 & V2 & V3). rewrite V1 in Ex. rewrite V2, V3. pose proof (Rabs_pos r). lra.
Qed.

Lemma case_large fuel x r : B2R (F (pw 2)) < B2R c -> 0 <= r <= 4.5 -> Phi r = B2R c ->
  bisect F c default_err fuel (pw 2) (pw 3) (pw 3) 0 = Some x -> pos80 x /\ near_quantile (B2R x) r.
Proof.
  intros H Hr Er E. pose proof u_pos as Pu. pose proof density_5 as D. destruct pw3 as (V3 & V2 & _). destruct (pw_val 2 ltac:(lia)) as (P2 & _). destruct (pw_val 3 ltac:(lia)) as (P3 & _).
  assert (U1 : u <= / 1000000000000) by (apply Rle_trans with (bpow radix2 (-40)); [apply bpow_le; lia|cbn; lra]).
  destruct mid_6 as (M6 & M5). destruct (int80_val 6 ltac:(lia)) as (F6 & E6). destruct (int80_val 5 ltac:(lia)) as (F5 & E5).
  assert (P6 : pos80 (of80 6)) by (split; [exact F6|apply sign_gt0; [exact F6|rewrite E6; lra]]).
  assert (P5 : pos80 (of80 5)) by (split; [exact F5|apply sign_gt0; [exact F5|rewrite E5; lra]]).
  destruct (cumulative_near _ P6 ltac:(lra)) as (G6 & B6 & C6). destruct (cumulative_near _ P5 ltac:(lra)) as (G5 & B5 & C5).
  destruct (cumulative_near _ P2 ltac:(lra)) as (G2 & _ & C2).
  rewrite E6 in C6. rewrite E5 in C5. rewrite V2 in C2. apply Rabs_le_inv in C6, C5, C2.
  pose proof (cdf_tail Phi N) as T. pose proof (cdf_slope Phi N 5 (/ 1048576) 4.5 5 D ltac:(lra) ltac:(lra)) as S5. pose proof (cdf_le Phi N 5 6 ltac:(lra)) as S6.
  assert (R4 : 3.99 <= r).
  { apply Rnot_lt_le. intros L. pose proof (cdf_slope Phi N (65 / 16) (/ 16384) r 4 density_4 ltac:(lra) ltac:(lra)). lra. }
  (* two steps: 6 and then 5 are above the root, with errors far above the limit *)
  assert (step : forall fuel0 lo hi m error stuck, mid lo hi = m -> pos80 m -> is_finite (F m) = true -> B2R c + / 2000000 <= B2R (F m) -> Rabs (B2R (F m)) <= 2 -> (stuck <= 1)%nat ->
     bisect F c default_err (S fuel0) lo hi error stuck = Some x -> exists err' st', (st' <= S stuck)%nat /\ bisect F c default_err fuel0 lo m err' st' = Some x).
  { clear - Fc Hc Pu U1 N He. intros fuel0 lo hi m error stuck Em Pm Fm Gm Bm Hst Hb. cbn [bisect] in Hb. rewrite Em in Hb. clear Em.
    assert (L : Bltb c (F m) = true) by (apply Bltb_K; try (now apply finite_nan); rewrite !K_finite by trivial; lra). rewrite L in Hb.
    apply Rabs_le_inv in Bm.
    destruct (op_ok_bounded _ _ 2 (minus_ok (F m) c Fm Fc)) as (G1 & G2 & _); [change (bpow radix2 2) with 4; apply Rabs_le; lra|lia|]. fold (sub80 (F m) c) in G1, G2.
    pose proof (rn80_err (B2R (F m) - B2R c) ltac:(apply Rabs_le; lra)) as E1. rewrite <- G2 in E1. apply Rabs_le_inv in E1.
    assert (L2 : Bltb default_err (Babs (sub80 (F m) c)) = true).
    { destruct default_err_val as (Fd & Bd). apply Bltb_K; [now apply finite_nan|apply finite_nan; now rewrite is_finite_Babs|].
      rewrite !K_finite by (trivial; now rewrite is_finite_Babs). rewrite B2R_Babs. rewrite Rabs_pos_eq by lra.
      destruct bpow_vals as (V1 & _). rewrite V1 in Bd. lra. }
    set (st := if Bleb error (Babs (sub80 (F m) c)) then S stuck else O) in *. assert (Hs : (st <= S stuck)%nat) by (unfold st; destruct (Bleb error _); lia).
    replace (10 <? st)%nat with false in Hb by (symmetry; apply Nat.ltb_ge; lia). rewrite L2 in Hb. eauto. }
  destruct fuel as [|fuel]; [discriminate|].
  destruct (step fuel (pw 2) (pw 3) (of80 6) (pw 3) 0%nat M6 P6 G6 ltac:(lra) B6 ltac:(lia) E) as (e1 & s1 & Hs1 & E1).
  destruct fuel as [|fuel]; [discriminate|].
  destruct (step fuel (pw 2) (of80 6) (of80 5) e1 s1 M5 P5 G5 ltac:(lra) B5 ltac:(lia) E1) as (e2 & s2 & Hs2 & E2).
  destruct (accurate_in (pw 2) (of80 5) 5 (/ 1048576) e2 s2 fuel x r) as (Px & Ex); trivial; try lra; try lia. split; [exact Px|].
  unfold near_quantile. destruct bpow_vals as (W1 & W2 & W3). rewrite W1 in Ex. rewrite W2, W3, (Rabs_pos_eq r) by lra. lra.
Qed.

Lemma bltb_lt x y : is_finite (x : f80) = true -> is_finite (y : f80) = true -> Bltb x y = true -> B2R x < B2R y.
Proof. intros A B E. apply Bltb_true in E. destruct E as (_ & _ & E). now rewrite !K_finite in E. Qed.
Lemma bltb_ge x y : is_finite (x : f80) = true -> is_finite (y : f80) = true -> Bltb x y = false -> B2R y <= B2R x.
Proof. intros A B E. apply Bltb_false in E; try (now apply finite_nan). now rewrite !K_finite in E. Qed.

Lemma search_accurate : exists n x, (forall fuel, (n <= fuel)%nat -> search F c default_err fuel = Some x) /\ pos80 x /\
  exists r, 0 <= r <= 4.5 /\ Phi r = B2R c /\ near_quantile (B2R x) r.
Proof.
  pose proof u_pos as Pu. destruct root_exists as (r & Br & Er). destruct pw3 as (V3 & V2 & V1 & V0).
  assert (U1 : u <= / 1000000000000) by (apply Rle_trans with (bpow radix2 (-40)); [apply bpow_le; lia|cbn; lra]).
  assert (FF : forall k, (0 <= k <= 3)%Z -> is_finite (F (pw k)) = true).
  { intros k Hk. destruct (pw_val k ltac:(lia)) as (Pk & Ek). apply cumulative_near; trivial. rewrite Ek. change 8 with (bpow radix2 3). apply bpow_le. lia. }
  assert (L8 : Bltb (F (pw 3)) c = false).
  { destruct (pw_val 3 ltac:(lia)) as (P3 & _). destruct (cumulative_near (pw 3) P3 ltac:(lra)) as (G & _ & C). rewrite V3 in C. apply Rabs_le_inv in C.
    pose proof (cdf_tail Phi N). pose proof (cdf_le Phi N 4.5 8 ltac:(lra)). apply not_less; trivial. lra. }
  destruct (search_ends F c default_err 3 ltac:(lia) L8) as (n & x & En).
  exists n, x. split; [intros fuel Hf; apply (more_le (search F c default_err) (search_more F c default_err) n fuel x Hf En)|].
  enough (pos80 x /\ near_quantile (B2R x) r) as (A & B) by (split; [exact A|exists r; auto]).
  unfold search in En. destruct (Bltb (F (of80 1)) c) eqn:B1.
  - destruct (double_up_ends F c 2 0 ltac:(lia) ltac:(lia)) as (f1 & i & E1 & Hi & Q1 & Q2); [exact L8|].
    rewrite pw_0 in En. destruct (double_up F c n (pw 0)) as [y|] eqn:Ey; [|discriminate].
    assert (y = pw (i + 1)).
    { destruct (Nat.le_ge_cases n f1) as [L|L].
      - pose proof (more_le (fun n => double_up F c n (pw 0)) (fun n => double_up_more F c n (pw 0)) n f1 y L Ey). congruence.
      - pose proof (more_le (fun n => double_up F c n (pw 0)) (fun n => double_up_more F c n (pw 0)) f1 n _ L E1). congruence. }
    subst y. rewrite (proj2 (pw_double i ltac:(lia))) in En.
    assert (Q3 : Bltb (F (pw i)) c = true) by (destruct Q2 as [->|Q2]; [rewrite <- pw_0; exact B1|exact Q2]).
    apply bltb_lt in Q3; try apply FF; try lia; trivial. apply bltb_ge in Q1; try apply FF; try lia; trivial.
    destruct (pw_val i ltac:(lia)) as (Pi & Ei). destruct (pw_val (i + 1) ltac:(lia)) as (Pj & Ej).
    destruct (Z.eq_dec i 2) as [->|Ni].
    + apply (case_large n); trivial.
    + apply (case_small (pw i) (pw (i + 1)) n); trivial; try lra.
      * rewrite Ei, Ej. apply bpow_le. lia.
      * rewrite Ej. change 4 with (bpow radix2 2). apply bpow_le. lia.
  - rewrite pw_0 in B1. apply bltb_ge in B1; try apply FF; try lia; trivial. rewrite <- pw_0 in B1.
    destruct zero80_val as (Z1 & Z2 & Z3). destruct one80_val as (O1 & O2 & O3).
    assert (P0 : pos80 (of80 0)) by now split. assert (P1 : pos80 (of80 1)) by now split.
    destruct (cumulative_near (of80 0) P0 ltac:(lra)) as (_ & _ & C0). rewrite Z2, (nc_half _ N) in C0. apply Rabs_le_inv in C0.
    apply (case_small (of80 0) (of80 1) n); trivial; lra.
Qed.
End Inv.
