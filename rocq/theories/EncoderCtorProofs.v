(** Construction of encoders, and the Uniform tables. *)
From Coq Require Import Reals Lra Lia ZifyBool ZifyNat.
From Verif Require Import Base Floats FloatLemmas Dictionary DictSpec DictionaryProofs StochasticEncoder EncSpec StochasticEncoderProofs DitherProofs.
Ltac Zify.zify_post_hook ::= Z.div_mod_to_equations.

Lemma upd_app {A} (l1 l2 : list A) (x y : A) : upd (l1 ++ x :: l2) (length l1) y = l1 ++ y :: l2.
Proof. induction l1 as [|a l1 IH]; cbn; trivial. now rewrite IH. Qed.

Lemma wr_app {A} (l1 l2 : list A) (x y : A) : wr (l1 ++ x :: l2) (length l1) y = Ok (l1 ++ y :: l2).
Proof.
  unfold wr. rewrite app_length. cbn [length].
  replace (length l1 <? length l1 + S (length l2))%nat with true by (symmetry; apply Nat.ltb_lt; lia).
  now rewrite upd_app.
Qed.

Lemma fill_loop_ok bnd val : forall todo i pe re pd rd, (1 <= i)%nat ->
  (todo <= length re)%nat -> (todo <= length rd)%nat ->
  fill_loop bnd val todo i (pe ++ re) (length pe) (pd ++ rd) (length pd) =
  Ok ((pe ++ map bnd (seq i todo)) ++ skipn todo re, (length pe + todo)%nat,
      (pd ++ map val (seq i todo)) ++ skipn todo rd, (length pd + todo)%nat).
Proof.
  induction todo as [|todo IH]; intros i pe re pd rd Hi Hre Hrd.
  - cbn. rewrite !app_nil_r, !Nat.add_0_r. reflexivity.
  - cbn [fill_loop]. replace (i =? 0)%nat with false by (symmetry; apply Nat.eqb_neq; lia).
    destruct re as [|x re]; [cbn in Hre; lia|]. destruct rd as [|y rd]; [cbn in Hrd; lia|].
    rewrite !wr_app. cbn [bind].
    replace (pe ++ bnd i :: re) with ((pe ++ [bnd i]) ++ re) by now rewrite <- app_assoc.
    replace (pd ++ val i :: rd) with ((pd ++ [val i]) ++ rd) by now rewrite <- app_assoc.
    replace (S (length pe)) with (length (pe ++ [bnd i])) by (rewrite app_length; cbn; lia).
    replace (S (length pd)) with (length (pd ++ [val i])) by (rewrite app_length; cbn; lia).
    cbn in Hre, Hrd. rewrite IH by lia. rewrite !app_length. cbn [seq map length skipn].
    rewrite <- !app_assoc. cbn [app]. rewrite <- !Nat.add_assoc. reflexivity.
Qed.

Lemma construct_ok q bnd val ea da : (2 <= q)%nat -> length ea = (q - 1)%nat -> length da = q ->
  construct q bnd val ea da =
  Ok (Encoder (map bnd (seq 1 (q - 2)) ++ [max32]) (map val (seq 0 (q - 1))) [nan32]).
Proof.
  intros Hq Hea Hda. unfold construct.
  destruct (q - 1)%nat as [|m] eqn:Em; [lia|].
  replace (q - 2)%nat with m by lia.
  destruct ea as [|x ea]; [discriminate|]. destruct da as [|y da]; [cbn in Hda; lia|].
  cbn [length] in Hea, Hda. cbn [fill_loop Nat.eqb bind].
  pose proof (wr_app [] da y (val 0%nat)) as W0. cbn [app length] in W0. rewrite W0. cbn [bind].
  pose proof (fill_loop_ok bnd val m 1 [] (x :: ea) [val 0%nat] da ltac:(lia) ltac:(cbn; lia) ltac:(lia)) as F.
  cbn [length] in F. change ([] ++ x :: ea) with (x :: ea) in F. change ([val 0%nat] ++ da) with (val 0%nat :: da) in F.
  rewrite F. clear F. cbn [bind].
  (* closing entries *)
  assert (Le : length ([] ++ map bnd (seq 1 m)) = (0 + m)%nat) by (cbn; now rewrite map_length, seq_length).
  assert (Ld : length ([val 0%nat] ++ map val (seq 1 m)) = (1 + m)%nat) by (cbn; now rewrite map_length, seq_length).
  assert (Se : length (skipn m (x :: ea)) = 1%nat) by (rewrite skipn_length; cbn [length]; lia).
  assert (Sd : length (skipn m da) = 1%nat) by (rewrite skipn_length; cbn [length]; lia).
  destruct (skipn m (x :: ea)) as [|e0 [|]]; try discriminate.
  destruct (skipn m da) as [|d0 [|]]; try discriminate.
  rewrite <- Le, wr_app. cbn [bind]. rewrite <- Ld, wr_app. cbn [bind].
  assert (G : forall (P : list f32) z, length P = S m -> firstn (S m) (P ++ [z]) = P /\ skipn (S m) (P ++ [z]) = [z]).
  { intros P z <-. rewrite firstn_app, skipn_app, Nat.sub_diag, firstn_O, firstn_all, skipn_all, app_nil_r. auto. }
  destruct (G _ nan32 Ld) as (-> & ->). reflexivity.
Qed.

Lemma nth_error_map_seq {A} (f : nat -> A) s n i x : nth_error (map f (seq s n)) i = Some x ->
  (i < n)%nat /\ x = f (s + i)%nat.
Proof.
  intros H. assert (L : (i < n)%nat).
  { assert (i < length (map f (seq s n)))%nat by (apply nth_error_Some; congruence).
    now rewrite map_length, seq_length in H0. }
  split; trivial.
  rewrite (nth_error_nth' _ (f 0%nat)) in H by (now rewrite map_length, seq_length).
  rewrite map_nth, seq_nth in H by trivial. congruence.
Qed.

Lemma map_seq_nth {A} (f : nat -> A) s n i : (i < n)%nat -> nth_error (map f (seq s n)) i = Some (f (s + i)%nat).
Proof.
  intros L. rewrite (nth_error_nth' _ (f 0%nat)) by (now rewrite map_length, seq_length).
  now rewrite map_nth, seq_nth.
Qed.

(** well-formed if the quantile expressions are in order *)
Lemma construct_wf q bnd val ea da :
  (3 <= q)%nat -> length ea = (q - 1)%nat -> length da = q ->
  (forall i, (1 <= i <= q - 2)%nat -> is_finite (bnd i) = true) ->
  (forall i j, (1 <= i < j)%nat -> (j <= q - 2)%nat -> Bleb (bnd i) (bnd j) = true) ->
  (forall i, (i <= q - 2)%nat -> is_finite (val i) = true) ->
  (forall i j, (i < j)%nat -> (j <= q - 2)%nat -> Bltb (val i) (val j) = true) ->
  exists e, construct q bnd val ea da = Ok e /\ well_formed e /\ QuantizationCount e = q /\
    (forall i, (i <= q - 2)%nat -> Decode e i = Ok (val i)) /\
    (forall i, (i < q - 2)%nat -> nth_error (enc e) i = Some (bnd (S i))).
Proof.
  intros Hq Hea Hda Fb Mb Fv Mv. rewrite construct_ok by (trivial; lia).
  eexists. split; [reflexivity|].
  assert (Le : length (map bnd (seq 1 (q - 2))) = (q - 2)%nat) by now rewrite map_length, seq_length.
  assert (Ld : length (map val (seq 0 (q - 1))) = (q - 1)%nat) by now rewrite map_length, seq_length.
  split; [|split; [|split]].
  - split; cbn [enc dec slack].
    + rewrite app_length, !map_length, !seq_length. cbn [length]. lia.
    + rewrite map_length, seq_length. lia.
    + intros i j x y Hij Hx Hy.
      assert (Gx : forall i x, nth_error (map bnd (seq 1 (q - 2)) ++ [max32]) i = Some x ->
         ((i < q - 2)%nat /\ x = bnd (S i)) \/ (i = (q - 2)%nat /\ x = max32)).
      { clear - Le. intros i x H. destruct (Nat.lt_ge_cases i (q - 2)) as [L|L].
        - left. rewrite nth_error_app1 in H by lia. apply nth_error_map_seq in H. destruct H as (H1 & ->). auto.
        - right. rewrite nth_error_app2 in H by lia. rewrite Le in H.
          destruct (i - (q - 2))%nat as [|[|]] eqn:E; cbn in H; try discriminate. injection H as <-. split; trivial. lia. }
      apply Gx in Hx. apply Gx in Hy.
      destruct Hx as [(Hi & ->)|(-> & ->)], Hy as [(Hj & ->)|(-> & ->)].
      * destruct (Nat.eq_dec i j) as [->|Hne].
        -- apply Bleb_refl, finite_nan, Fb. lia.
        -- apply Mb; lia.
      * apply finite_le_max, Fb. lia.
      * lia.
      * apply Bleb_refl. reflexivity.
    + rewrite app_length, map_length, seq_length. cbn [length]. rewrite nth_error_app2 by (rewrite map_length, seq_length; lia). rewrite map_length, seq_length.
      replace (q - 2 + 1 - 1 - (q - 2))%nat with 0%nat by lia. reflexivity.
    + intros i j x y Hij Hx Hy. apply nth_error_map_seq in Hx, Hy. destruct Hx as (Hi & ->), Hy as (Hj & ->).
      apply Mv; lia.
    + apply Forall_forall. intros x Hx. apply in_map_iff in Hx. destruct Hx as (i & <- & Hi). apply in_seq in Hi. apply Fv. lia.
    + exists []. reflexivity.
  - unfold QuantizationCount. cbn [dec]. rewrite map_length, seq_length. lia.
  - intros i Hi. apply decode_nth. cbn [dec]. rewrite map_seq_nth by lia. reflexivity.
  - intros i Hi. cbn [enc]. rewrite nth_error_app1 by (rewrite map_length, seq_length; lia). rewrite map_seq_nth by trivial. reflexivity.
Qed.

(** ** The Uniform tables *)
Local Open Scope R_scope.

(** the common shape: numerator [c], denominator [N] *)
Definition uni (s : f32) (c N : Z) : f32 :=
  to32 (mul80 (to80 s) (add80 (of80 (-1)) (div80 (of80 c) (of80 N)))).

Lemma int80 z : (Z.abs z < 2 ^ 64)%Z -> is_finite (of80 z) = true /\ B2R (of80 z) = IZR z.
Proof. apply ofZ_exact. Qed.

Lemma B2R_eq80 (x y : f80) : is_finite x = true -> is_finite y = true -> B2R x = B2R y -> B2R x <> 0 -> x = y.
Proof.
  intros Fx Fy E N. apply B2R_Bsign_inj; trivial.
  destruct (Rle_or_lt (B2R x) 0) as [H|H].
  - rewrite (sign_lt0 x), (sign_lt0 y); trivial; lra.
  - rewrite (sign_gt0 x), (sign_gt0 y); trivial; lra.
Qed.

Lemma zero80 : mul80 (of80 2) (of80 0) = of80 0.
Proof. apply B2SF_inj. vm_compute. reflexivity. Qed.

Lemma uniform_bnd_uni s q i : (Z.of_nat i < 2 ^ 62)%Z -> uniform_bnd s q i = uni s (2 * Z.of_nat i) (Z.of_nat q - 1).
Proof.
  intros H. unfold uniform_bnd, uni. do 4 f_equal.
  destruct (Nat.eq_dec i 0) as [->|Hne]; [apply zero80|].
  destruct (int80 2 ltac:(lia)) as (F2 & E2). destruct (int80 (Z.of_nat i) ltac:(lia)) as (Fi & Ei).
  destruct (int80 (2 * Z.of_nat i) ltac:(lia)) as (Fd & Ed).
  destruct (op_ok_exact _ _ (of80 (2 * Z.of_nat i)) (mult_ok (of80 2) (of80 (Z.of_nat i)) F2 Fi) Fd) as (Fm & Em).
  { rewrite Ed, E2, Ei, mult_IZR. reflexivity. }
  apply B2R_eq80; trivial.
  - unfold mul80. rewrite Em, Ed, E2, Ei, mult_IZR. reflexivity.
  - unfold mul80. rewrite Em, E2, Ei. apply Rmult_integral_contrapositive. split; [lra|]. apply IZR_neq. lia.
Qed.

Lemma uniform_val_uni s q i : (Z.of_nat i < 2 ^ 62)%Z -> uniform_val s q i = uni s (2 * Z.of_nat i + 1) (Z.of_nat q - 1).
Proof.
  intros H. unfold uniform_val, uni. do 4 f_equal.
  destruct (int80 2 ltac:(lia)) as (F2 & E2). destruct (int80 (Z.of_nat i) ltac:(lia)) as (Fi & Ei).
  destruct (dy_exact (p:=64) (e:=16384) 1 (-1) ltac:(lia) ltac:(lia) ltac:(lia)) as (Fh & Eh).
  destruct (dy_exact (p:=64) (e:=16384) (2 * Z.of_nat i + 1) (-1) ltac:(lia) ltac:(lia) ltac:(lia)) as (Fw & Ew).
  destruct (int80 (2 * Z.of_nat i + 1) ltac:(lia)) as (Fd & Ed).
  change (bpow radix2 (-1)) with (/ 2) in *.
  destruct (op_ok_exact _ _ (dy (2 * Z.of_nat i + 1) (-1)) (plus_ok (of80 (Z.of_nat i)) (dy 1 (-1)) Fi Fh) Fw) as (Fp & Ep).
  { rewrite Ew, Ei, Eh, plus_IZR, mult_IZR. field. }
  destruct (op_ok_exact _ _ (of80 (2 * Z.of_nat i + 1)) (mult_ok (of80 2) (add80 (of80 (Z.of_nat i)) (dy 1 (-1))) F2 Fp) Fd) as (Fm & Em).
  { unfold add80. rewrite Ed, E2, Ep, Ei, Eh, plus_IZR, mult_IZR. field. }
  assert (Q : B2R (mul80 (of80 2) (add80 (of80 (Z.of_nat i)) (dy 1 (-1)))) = IZR (2 * Z.of_nat i + 1)).
  { unfold mul80, add80 in *. rewrite Em, E2, Ep, Ei, Eh, plus_IZR, mult_IZR. field. }
  apply B2R_eq80; trivial.
  - now rewrite Ed.
  - rewrite Q. apply IZR_neq. lia.
Qed.

Lemma err80 x : Rabs x <= 4 -> Rabs (rne (p:=64) (e:=16384) x - x) <= bpow radix2 (-60).
Proof.
  intros H. pose proof (rne_err (p:=64) (e:=16384) x) as E.
  assert (H1 : bpow radix2 (2 - 16384 - 64) <= bpow radix2 (-64)) by (apply bpow_le; lia).
  replace (bpow radix2 (-60)) with (16 * bpow radix2 (-64)) by (change 16 with (bpow radix2 4); rewrite <- bpow_plus; reflexivity).
  assert (0 < bpow radix2 (-64)) by apply bpow_gt_0. change (- (64))%Z with (-64)%Z in E.
  set (t := bpow radix2 (-64)) in *. set (y := bpow radix2 (2 - 16384 - 64)) in *. nra.
Qed.

Lemma err32 x : Rabs x <= 4 -> Rabs (rne (p:=24) (e:=128) x - x) <= bpow radix2 (-24) * Rabs x + bpow radix2 (-64).
Proof.
  intros H. pose proof (rne_err (p:=24) (e:=128) x) as E.
  assert (H1 : bpow radix2 (2 - 128 - 24) <= bpow radix2 (-64)) by (apply bpow_le; lia).
  change (- (24))%Z with (-24)%Z in E. lra.
Qed.

Lemma uni_ok s c N : is_finite s = true -> 0 <= B2R s <= 2 -> (1 <= N < 2 ^ 62)%Z -> (0 <= c <= 2 * N)%Z ->
  is_finite (uni s c N) = true /\
  Rabs (B2R (uni s c N) - B2R s * (-1 + IZR c / IZR N)) <= bpow radix2 (-22).
Proof.
  intros Fs Hs HN Hc. unfold uni.
  destruct (int80 c ltac:(lia)) as (Fc & Ec). destruct (int80 N ltac:(lia)) as (FN & EN).
  destruct (int80 (-1) ltac:(lia)) as (F1 & E1).
  assert (N0 : 0 < IZR N) by (apply IZR_lt; lia).
  assert (Hr : 0 <= IZR c / IZR N <= 2).
  { split.
    - apply Rmult_le_pos; [apply IZR_le; lia|]. now apply Rlt_le, Rinv_0_lt_compat.
    - apply Rmult_le_reg_r with (IZR N); trivial. unfold Rdiv. rewrite Rmult_assoc, Rinv_l by lra.
      rewrite Rmult_1_r, <- mult_IZR. apply IZR_le. lia. }
  set (r := IZR c / IZR N) in *.
  assert (T60 : bpow radix2 (-60) <= / 1024 / 1024 / 1024 / 1024).
  { change (/ 1024 / 1024 / 1024 / 1024) with (/ 1024 * / 1024 * / 1024 * / 1024).
    change (/ 1024) with (bpow radix2 (-10)). rewrite <- !bpow_plus. apply bpow_le. lia. }
  assert (T60p : 0 < bpow radix2 (-60)) by apply bpow_gt_0.
  set (t := bpow radix2 (-60)) in *.
  (* division *)
  destruct (op_ok_bounded _ _ 1 (div_ok (of80 c) (of80 N) Fc FN ltac:(rewrite EN; lra))) as (Fd & Ed & Bd).
  { rewrite Ec, EN. fold r. rewrite Rabs_pos_eq by lra. change (bpow radix2 1) with 2. lra. }
  { lia. }
  fold (div80 (of80 c) (of80 N)) in *. set (d := div80 (of80 c) (of80 N)) in *.
  rewrite Ec, EN in Ed. fold r in Ed.
  assert (Hd : Rabs (B2R d - r) <= t) by (rewrite Ed; apply err80; rewrite Rabs_pos_eq; lra).
  change (bpow radix2 1) with 2 in Bd. apply Rabs_le_inv in Bd. apply Rabs_le_inv in Hd.
  (* addition *)
  destruct (op_ok_bounded _ _ 2 (plus_ok (of80 (-1)) d F1 Fd)) as (Fw & Ew & Bw).
  { rewrite E1. apply Rabs_le. change (bpow radix2 2) with 4. lra. }
  { lia. }
  fold (add80 (of80 (-1)) d) in *. set (w := add80 (of80 (-1)) d) in *. rewrite E1 in Ew.
  assert (Hw : Rabs (B2R w - (-1 + B2R d)) <= t) by (rewrite Ew; apply err80; apply Rabs_le; lra).
  apply Rabs_le_inv in Hw.
  assert (Hw' : -1 - 2 * t <= B2R w <= 1 + 2 * t) by lra.
  (* product *)
  destruct (conv_widen (p':=64) (e':=16384) s ltac:(lia) ltac:(lia) Fs) as (Fs' & Es').
  fold (to80 s) in *.
  assert (Hsw : Rabs (B2R s * B2R w) <= 2 + 4 * t) by (apply Rabs_le; nra).
  destruct (op_ok_bounded _ _ 2 (mult_ok (to80 s) w Fs' Fw)) as (Fp & Ep & Bp).
  { rewrite Es'. change (bpow radix2 2) with 4. lra. }
  { lia. }
  fold (mul80 (to80 s) w) in *. set (p := mul80 (to80 s) w) in *. rewrite Es' in Ep.
  assert (Hp : Rabs (B2R p - B2R s * B2R w) <= t) by (rewrite Ep; apply err80; lra).
  apply Rabs_le_inv in Hp. apply Rabs_le_inv in Hsw.
  (* conversion to float *)
  change (bpow radix2 2) with 4 in Bp.
  destruct (op_ok_bounded _ _ 2 (conv_ok (p':=24) (e':=128) p Fp)) as (Fr & Er & Br).
  { change (bpow radix2 2) with 4. exact Bp. }
  { lia. }
  fold (to32 p) in *. split; trivial.
  pose proof (err32 (B2R p) Bp) as Hf. rewrite <- Er in Hf.
  assert (Q24 : bpow radix2 (-24) * Rabs (B2R p) <= bpow radix2 (-24) * (2 + 5 * t)).
  { apply Rmult_le_compat_l; [apply bpow_ge_0|]. apply Rabs_le. lra. }
  assert (Q64 : bpow radix2 (-64) <= t) by (apply bpow_le; lia).
  change (bpow radix2 (-24)) with (/ 16777216) in *. change (bpow radix2 (-22)) with (/ 4194304).
  assert (Hx : Rabs (B2R (to32 p) - B2R p) <= / 16777216 * (2 + 5 * t) + t) by lra.
  apply Rabs_le_inv in Hx.
  assert (S1 : Rabs (B2R s * B2R w - B2R s * (-1 + r)) <= 4 * t).
  { replace (B2R s * B2R w - B2R s * (-1 + r)) with (B2R s * (B2R w - (-1 + r))) by ring.
    rewrite Rabs_mult, (Rabs_pos_eq (B2R s)) by lra.
    apply Rle_trans with (2 * (2 * t)); [|lra]. apply Rmult_le_compat; try lra; [apply Rabs_pos|].
    apply Rabs_le. lra. }
  apply Rabs_le_inv in S1. apply Rabs_le. lra.
Qed.

(** later numerators give larger values *)
Lemma uni_lt s c c' N : is_finite s = true -> 1 <= B2R s <= 2 -> (1 <= N <= 65535)%Z ->
  (0 <= c < c')%Z -> (c' <= 2 * N)%Z -> Bltb (uni s c N) (uni s c' N) = true.
Proof.
  intros Fs Hs HN Hc Hc'.
  destruct (uni_ok s c N Fs ltac:(lra) ltac:(lia) ltac:(lia)) as (F1 & E1).
  destruct (uni_ok s c' N Fs ltac:(lra) ltac:(lia) ltac:(lia)) as (F2 & E2).
  apply Bltb_K; try now apply finite_nan. rewrite !K_finite by trivial.
  apply Rabs_le_inv in E1, E2. change (bpow radix2 (-22)) with (/ 4194304) in *.
  assert (N0 : 0 < IZR N) by (apply IZR_lt; lia).
  assert (G : / 65535 <= IZR c' / IZR N - IZR c / IZR N).
  { replace (IZR c' / IZR N - IZR c / IZR N) with ((IZR c' - IZR c) * / IZR N) by (field; lra).
    assert (1 <= IZR c' - IZR c) by (rewrite <- minus_IZR; apply IZR_le; lia).
    assert (/ 65535 <= / IZR N) by (apply Rinv_le; [lra|]; apply IZR_le; lia).
    assert (0 < / 65535) by lra. nra. }
  assert (B2R s * (-1 + IZR c' / IZR N) - B2R s * (-1 + IZR c / IZR N) >= / 65535) by nra.
  lra.
Qed.

Lemma uni_mid s N : is_finite s = true -> (1 <= N < 2 ^ 62)%Z -> is_finite (uni s N N) = true /\ B2R (uni s N N) = 0.
Proof.
  intros Fs HN. unfold uni.
  destruct (int80 N ltac:(lia)) as (FN & EN). destruct (int80 (-1) ltac:(lia)) as (F1 & E1).
  destruct (int80 1 ltac:(lia)) as (G1 & H1).
  assert (N0 : 0 < IZR N) by (apply IZR_lt; lia).
  destruct (op_ok_exact _ _ (of80 1) (div_ok (of80 N) (of80 N) FN FN ltac:(lra)) G1) as (Fd & Ed).
  { rewrite H1, EN. field. lra. }
  fold (div80 (of80 N) (of80 N)) in *. set (d := div80 _ _) in *.
  assert (Ed1 : B2R d = 1) by (rewrite Ed, EN; field; lra).
  destruct (op_ok_exact _ _ (B754_zero false) (plus_ok (of80 (-1)) d F1 Fd) eq_refl) as (Fw & Ew).
  { rewrite E1, Ed1. cbn. lra. }
  fold (add80 (of80 (-1)) d) in *. set (w := add80 _ _) in *.
  assert (Ew0 : B2R w = 0) by (rewrite Ew, E1, Ed1; lra).
  destruct (conv_widen (p':=64) (e':=16384) s ltac:(lia) ltac:(lia) Fs) as (Fs' & Es'). fold (to80 s) in *.
  destruct (op_ok_exact _ _ (B754_zero false) (mult_ok (to80 s) w Fs' Fw) eq_refl) as (Fp & Ep).
  { rewrite Ew0. cbn. ring. }
  fold (mul80 (to80 s) w) in *. set (p := mul80 _ _) in *.
  assert (Ep0 : B2R p = 0) by (rewrite Ep, Ew0; ring).
  destruct (op_ok_exact _ _ (B754_zero false) (conv_ok (p':=24) (e':=128) p Fp) eq_refl) as (Fr & Er).
  { rewrite Ep0. reflexivity. }
  fold (to32 p) in *. split; trivial. now rewrite Er.
Qed.

Lemma stddev_one : is_finite (scaled_stddev (of32 1)) = true /\ 1 <= B2R (scaled_stddev (of32 1)) <= 2.
Proof.
  assert (G : B2SF (scaled_stddev (of32 1)) = SpecFloat.S754_finite false 14529495 (-23)) by (vm_compute; reflexivity).
  split; [vm_compute; reflexivity|].
  rewrite <- (SF2R_B2SF 24 128), G. cbn -[bpow]. unfold F2R. cbn -[bpow].
  change (bpow radix2 (-23)) with (/ 8388608). lra.
Qed.

Section Uniform.
Variable q : nat.
Hypothesis Hq : (3 <= q)%nat.
Hypothesis Hq' : (Z.of_nat q <= 65536)%Z.
Variables ea da : list f32.
Hypothesis Hea : length ea = (q - 1)%nat.
Hypothesis Hda : length da = q.
Let s := scaled_stddev (of32 1).
Let N := (Z.of_nat q - 1)%Z.

Lemma uniform_built : exists e, uniform_encoder q (of32 1) ea da = Ok e /\ well_formed e /\ QuantizationCount e = q /\
  (forall i, (i <= q - 2)%nat -> Decode e i = Ok (uni s (2 * Z.of_nat i + 1) N)) /\
  (forall i, (i < q - 2)%nat -> nth_error (enc e) i = Some (uni s (2 * Z.of_nat i + 2) N)).
Proof.
  destruct stddev_one as (Fs & Hs). fold s in Fs, Hs.
  destruct (construct_wf q (uniform_bnd s q) (uniform_val s q) ea da Hq Hea Hda) as (e & E & W & Q & D & B).
  - intros i Hi. rewrite uniform_bnd_uni by lia. apply uni_ok; trivial; try lra; lia.
  - intros i j Hij Hj. rewrite !uniform_bnd_uni by lia. apply Bltb_Bleb, uni_lt; trivial; lia.
  - intros i Hi. rewrite uniform_val_uni by lia. apply uni_ok; trivial; try lra; lia.
  - intros i j Hij Hj. rewrite !uniform_val_uni by lia. apply uni_lt; trivial; lia.
  - exists e. split; [exact E|]. split; trivial. split; trivial. split.
    + intros i Hi. rewrite D by trivial. rewrite uniform_val_uni by lia. reflexivity.
    + intros i Hi. rewrite B by trivial. rewrite uniform_bnd_uni by lia. unfold N. do 2 f_equal. lia.
Qed.

Variable e : encoder.
Hypothesis He : uniform_encoder q (of32 1) ea da = Ok e.

Lemma built_facts : well_formed e /\ QuantizationCount e = q /\
  (forall i, (i <= q - 2)%nat -> Decode e i = Ok (uni s (2 * Z.of_nat i + 1) N)) /\
  (forall i, (i < q - 2)%nat -> nth_error (enc e) i = Some (uni s (2 * Z.of_nat i + 2) N)).
Proof. destruct uniform_built as (e' & E & H). rewrite He in E. injection E as <-. exact H. Qed.

(** encoding the number [c/N]: any numerator, both levels and boundaries *)
Lemma encode_between v i : (i <= q - 2)%nat -> is_finite v = true ->
  ((i = 0)%nat \/ Bltb (uni s (2 * Z.of_nat i) N) v = true) ->
  ((i = q - 2)%nat \/ Bleb v (uni s (2 * Z.of_nat i + 2) N) = true) ->
  Encode e v = Ok i.
Proof.
  intros Hi Fv Lo Hi'. destruct built_facts as (W & Q & D & B). destruct stddev_one as (Fs & Hs). fold s in Fs, Hs.
  assert (Ln : length (dec e) = (q - 1)%nat) by (unfold QuantizationCount in Q; lia).
  pose proof (len_enc e W) as Le.
  destruct (encode_finite e W v Fv) as (t & Et & Ht & Hlb). rewrite Et. f_equal.
  apply (lower_bound_unique (enc e) v); trivial. repeat split; try lia.
  - intros j x Hj Hx. rewrite B in Hx by lia.
    assert (x = uni s (2 * Z.of_nat j + 2) N) as -> by congruence. clear Hx.
    destruct Lo as [->|Lo]; [lia|].
    destruct (Nat.eq_dec (S j) i) as [<-|Hne].
    + replace (2 * Z.of_nat j + 2)%Z with (2 * Z.of_nat (S j))%Z by lia. exact Lo.
    + apply Bltb_Bleb_trans with (uni s (2 * Z.of_nat i) N); [|now apply Bltb_Bleb].
      apply uni_lt; trivial; lia.
  - intros x Hx. destruct Hi' as [->|Hi'].
    + assert (x = max32) as ->.
      { pose proof (wf_enc_last e W) as L. rewrite Le, Ln in L. replace (q - 1 - 1)%nat with (q - 2)%nat in L by lia. congruence. }
      destruct (Bltb max32 v) eqn:G; trivial. pose proof (finite_le_max v Fv) as M.
      apply (Bltb_Bleb_trans max32 v max32) in G; trivial. rewrite Bltb_irrefl in G. discriminate.
    + destruct (Nat.eq_dec i (q - 2)) as [->|Hne].
      * assert (x = max32) as ->.
        { pose proof (wf_enc_last e W) as L. rewrite Le, Ln in L. replace (q - 1 - 1)%nat with (q - 2)%nat in L by lia. congruence. }
        destruct (Bltb max32 v) eqn:G; trivial. pose proof (finite_le_max v Fv) as M.
        apply (Bltb_Bleb_trans max32 v max32) in G; trivial. rewrite Bltb_irrefl in G. discriminate.
      * rewrite B in Hx by lia. assert (x = uni s (2 * Z.of_nat i + 2) N) as -> by congruence.
        match goal with |- ?c = false => destruct c eqn:G; trivial end.
        apply (Bleb_Bltb_trans v _ v) in G; trivial. rewrite Bltb_irrefl in G. discriminate.
Qed.

Lemma uniform_idempotent i x : (i < q - 1)%nat -> Decode e i = Ok x -> Encode e x = Ok i.
Proof.
  intros Hi Dx. destruct built_facts as (W & Q & D & B). destruct stddev_one as (Fs & Hs). fold s in Fs, Hs.
  rewrite D in Dx by lia. assert (x = uni s (2 * Z.of_nat i + 1) N) as -> by congruence. clear Dx.
  apply encode_between; [lia|apply uni_ok; trivial; try lra; lia| |].
  - right. apply uni_lt; trivial; lia.
  - destruct (Nat.eq_dec i (q - 2)) as [->|]; [now left|]. right. apply Bltb_Bleb, uni_lt; trivial; lia.
Qed.

Lemma uniform_zero v : Nat.even q = true -> is_finite v = true -> B2R v = 0 ->
  exists i x, Encode e v = Ok i /\ Decode e i = Ok x /\ B2R x = 0.
Proof.
  intros Ev Fv Hv. destruct built_facts as (W & Q & D & B). destruct stddev_one as (Fs & Hs). fold s in Fs, Hs.
  apply Nat.even_spec in Ev. destruct Ev as (h & Eh).
  set (i := (h - 1)%nat). exists i, (uni s (2 * Z.of_nat i + 1) N).
  assert (Ei : (2 * Z.of_nat i + 1 = N)%Z) by (unfold i, N; lia).
  destruct (uni_mid s N Fs ltac:(unfold N; lia)) as (Fm & Em).
  split; [|split; [apply D; lia|rewrite Ei; exact Em]].
  assert (Kv : K v = K (uni s N N)) by (rewrite !K_finite by trivial; lra).
  assert (Nv : is_nan v = false) by now apply finite_nan.
  apply encode_between; trivial; [lia| |].
  - right. rewrite Bltb_K by (trivial; apply finite_nan, uni_ok; trivial; try lra; lia).
    rewrite Kv. apply Bltb_K; try apply finite_nan; try (apply uni_ok; trivial; try lra; lia).
    apply uni_lt; trivial; lia.
  - right. rewrite Bleb_K by (trivial; apply finite_nan, uni_ok; trivial; try lra; lia).
    rewrite Kv. apply Bleb_K; try apply finite_nan; try (apply uni_ok; trivial; try lra; lia).
    apply Bltb_Bleb, uni_lt; trivial; lia.
Qed.

Lemma uniform_error v : is_finite v = true -> Rabs (B2R v) <= B2R s ->
  exists i x, Encode e v = Ok i /\ Decode e i = Ok x /\
  Rabs (B2R x - B2R v) <= B2R s / IZR N + bpow radix2 (-21).
Proof.
  intros Fv Hv. destruct built_facts as (W & Q & D & B). destruct stddev_one as (Fs & Hs). fold s in Fs, Hs.
  assert (Ln : length (dec e) = (q - 1)%nat) by (unfold QuantizationCount in Q; lia).
  pose proof (len_enc e W) as Le.
  destruct (encode_finite e W v Fv) as (i & Ei & Hi & (L1 & L2 & L3)).
  exists i, (uni s (2 * Z.of_nat i + 1) N). split; trivial. split; [apply D; lia|].
  destruct (uni_ok s (2 * Z.of_nat i + 1) N Fs ltac:(lra) ltac:(unfold N; lia) ltac:(unfold N; lia)) as (F0 & E0).
  apply Rabs_le_inv in E0, Hv.
  assert (N0 : 0 < IZR N) by (apply IZR_lt; unfold N; lia).
  assert (NE : IZR N = IZR (Z.of_nat q) - 1) by (unfold N; rewrite minus_IZR; reflexivity).
  (* upper end *)
  assert (Up : B2R v <= B2R s * (-1 + IZR (2 * Z.of_nat i + 2) / IZR N) + bpow radix2 (-22)).
  { destruct (Nat.eq_dec i (q - 2)) as [->|Hne].
    - replace (2 * Z.of_nat (q - 2) + 2)%Z with (2 * N)%Z by (unfold N; lia). rewrite mult_IZR.
      replace (2 * IZR N / IZR N) with 2 by (field; lra). pose proof (bpow_gt_0 radix2 (-22)). lra.
    - specialize (L3 _ (B i ltac:(lia))).
      destruct (uni_ok s (2 * Z.of_nat i + 2) N Fs ltac:(lra) ltac:(unfold N; lia) ltac:(unfold N; lia)) as (F1 & E1).
      apply Bltb_false in L3; try now apply finite_nan. rewrite !K_finite in L3 by trivial.
      apply Rabs_le_inv in E1. lra. }
  assert (Lo : B2R s * (-1 + IZR (2 * Z.of_nat i) / IZR N) - bpow radix2 (-22) <= B2R v).
  { destruct i as [|j].
    - change (2 * Z.of_nat 0)%Z with 0%Z. replace (0 / IZR N) with 0 by (field; lra). pose proof (bpow_gt_0 radix2 (-22)). lra.
    - specialize (L2 j _ ltac:(lia) (B j ltac:(lia))).
      destruct (uni_ok s (2 * Z.of_nat j + 2) N Fs ltac:(lra) ltac:(unfold N; lia) ltac:(unfold N; lia)) as (F1 & E1).
      apply Bltb_true in L2. rewrite !K_finite in L2 by trivial.
      apply Rabs_le_inv in E1. replace (2 * Z.of_nat (S j))%Z with (2 * Z.of_nat j + 2)%Z by lia. lra. }
  assert (P1 : B2R s * (-1 + IZR (2 * Z.of_nat i + 2) / IZR N) = B2R s * (-1 + IZR (2 * Z.of_nat i + 1) / IZR N) + B2R s / IZR N)
    by (rewrite !plus_IZR; field; lra).
  assert (P2 : B2R s * (-1 + IZR (2 * Z.of_nat i) / IZR N) = B2R s * (-1 + IZR (2 * Z.of_nat i + 1) / IZR N) - B2R s / IZR N)
    by (rewrite !plus_IZR; field; lra).
  change (bpow radix2 (-22)) with (/ 4194304) in *. change (bpow radix2 (-21)) with (/ 2097152) in *.
  apply Rabs_le. lra.
Qed.
End Uniform.

Lemma construct_well_formed quantCount bnd val ea da :
  (3 <= quantCount)%nat -> length ea = (quantCount - 1)%nat -> length da = quantCount ->
  (forall i, (1 <= i < quantCount - 1)%nat -> is_finite (bnd i) = true) ->
  (forall i j, (1 <= i < j)%nat -> (j < quantCount - 1)%nat -> Bleb (bnd i) (bnd j) = true) ->
  (forall i, (i < quantCount - 1)%nat -> is_finite (val i) = true) ->
  (forall i j, (i < j)%nat -> (j < quantCount - 1)%nat -> Bltb (val i) (val j) = true) ->
  exists e, construct quantCount bnd val ea da = Ok e /\ well_formed e /\ QuantizationCount e = quantCount /\
    (forall i, (i < quantCount - 1)%nat -> Decode e i = Ok (val i)) /\
    (forall i, (i < quantCount - 2)%nat -> RightBoundary e i = Ok (bnd (S i))).
Proof.
  intros Hq Ha Hd F1 M1 F2 M2.
  destruct (construct_wf quantCount bnd val ea da Hq Ha Hd) as (e & E & W & Q & D & B);
    try (intros; (apply F1 || apply M1 || apply F2 || apply M2); lia).
  exists e. repeat (split; trivial).
  - intros i Hi. apply D. lia.
  - intros i Hi. unfold RightBoundary. rewrite (wf_len e W). unfold QuantizationCount in Q.
    replace (i =? length (dec e))%nat with false by (symmetry; apply Nat.eqb_neq; lia).
    unfold rd. rewrite B by lia. reflexivity.
Qed.

Lemma uniform_well_formed quantCount ea da :
  (3 <= quantCount)%nat -> (Z.of_nat quantCount <= 65536)%Z ->
  length ea = (quantCount - 1)%nat -> length da = quantCount ->
  exists e, uniform_encoder quantCount (of32 1) ea da = Ok e /\ well_formed e /\ QuantizationCount e = quantCount.
Proof.
  intros H1 H2 H3 H4. destruct (uniform_built quantCount H1 H2 ea da H3 H4) as (e & E & W & Q & _). now exists e.
Qed.

Lemma uniform_error_num quantCount ea da e :
  (3 <= quantCount)%nat -> (Z.of_nat quantCount <= 65536)%Z ->
  length ea = (quantCount - 1)%nat -> length da = quantCount ->
  uniform_encoder quantCount (of32 1) ea da = Ok e ->
  forall v, is_finite v = true -> Rabs (B2R v) <= 1.732 ->
  exists s x, Encode e v = Ok s /\ Decode e s = Ok x /\
    Rabs (B2R x - B2R v) <= 1.7321 / IZR (Z.of_nat quantCount - 1) + bpow radix2 (-21).
Proof.
  intros H1 H2 H3 H4 He v Fv Hv.
  assert (S : 1.732 <= B2R (scaled_stddev (of32 1)) <= 1.7321).
  { assert (G : B2SF (scaled_stddev (of32 1)) = SpecFloat.S754_finite false 14529495 (-23)) by (vm_compute; reflexivity).
    rewrite <- (SF2R_B2SF 24 128), G. cbn -[bpow]. unfold F2R. cbn -[bpow].
    change (bpow radix2 (-23)) with (/ 8388608). lra. }
  destruct (uniform_error quantCount H1 H2 ea da H3 H4 e He v Fv ltac:(lra)) as (i & x & E & D & B).
  exists i, x. split; trivial. split; trivial. eapply Rle_trans; [exact B|].
  apply Rplus_le_compat_r. apply Rmult_le_compat_r; [|lra].
  apply Rlt_le, Rinv_0_lt_compat, IZR_lt. lia.
Qed.
