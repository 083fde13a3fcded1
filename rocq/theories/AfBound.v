(** AF normalization: error bound.  Proof file. *)
From Coq Require Import Reals Lra Psatz.
From Flocq Require Import Core.
From Verif Require Import Base BaseLemmas Floats FloatLemmas WeightProofs WeightMoreProofs TimeBlockBuffer DictSpec StochasticEncoder EncSpec StochasticEncoderProofs
  TimeBlockEncoders TbeSpec TbeLoops TbeRowRf TbeReal TbeErr TbeRowRfProofs TbeMore AfForm AfFit AfSpec AfCode AfErr.
Local Open Scope R_scope.

(** ** The root mean square of a channel *)
Definition sized (v : cd) : Prop := forall im, is_finite (part im v) = true -> Rabs (B2R (part im v)) <= bpow radix2 128.

Lemma square (x : f64) : is_finite x = true -> Rabs (B2R x) <= bpow radix2 128 ->
  is_finite (mul64 x x) = true /\ 0 <= B2R (mul64 x x) <= bpow radix2 256 /\ (bpow radix2 (-90) <= Rabs (B2R x) -> bpow radix2 (-180) <= B2R (mul64 x x)).
Proof.
  intros F H. assert (S : B2R x * B2R x = Rabs (B2R x) * Rabs (B2R x)) by (rewrite <- Rabs_mult; symmetry; apply Rabs_pos_eq; nra).
  pose proof (Rabs_pos (B2R x)) as P. assert (B : 0 <= B2R x * B2R x <= bpow radix2 256).
  { rewrite S. change 256%Z with (128 + 128)%Z. rewrite bpow_plus. split; [nra|]. apply Rmult_le_compat; trivial. }
  assert (RB : 0 <= rn64 (B2R x * B2R x) <= bpow radix2 256).
  { split; [now apply rne_ge0|]. rewrite <- (rne_bpow (p := 53) (e := 1024) 256) by lia. now apply rne_le. }
  destruct (op_ok_finite (mul64 x x) (B2R x * B2R x)) as (A & E); [now apply mult_ok| |].
  - rewrite Rabs_pos_eq by apply RB. eapply Rle_lt_trans; [apply RB|]. apply bpow_lt. lia.
  - split; trivial. rewrite E. split; trivial. intros G. rewrite <- (rne_bpow (p := 53) (e := 1024) (-180)) by lia. apply rne_le.
    rewrite S. change (-180)%Z with (-90 + -90)%Z. rewrite bpow_plus. pose proof (bpow_ge_0 radix2 (-90)). now apply Rmult_le_compat.
Qed.

Lemma add_pos (x y : f64) (k : Z) : is_finite x = true -> is_finite y = true -> 0 <= B2R x -> 0 <= B2R y -> (0 <= k < 2 ^ 53)%Z ->
  B2R x + B2R y <= IZR k * bpow radix2 257 ->
  is_finite (add64 x y) = true /\ B2R x <= B2R (add64 x y) /\ B2R y <= B2R (add64 x y) /\ B2R (add64 x y) <= IZR k * bpow radix2 257.
Proof.
  intros Fx Fy Px Py Hk H. assert (U : rn64 (B2R x + B2R y) <= IZR k * bpow radix2 257).
  { rewrite <- (rne_F2R (p := 53) (e := 1024) k 257) by (try lia; rewrite Z.abs_eq by lia; lia). now apply rne_le. }
  assert (Lx : B2R x <= rn64 (B2R x + B2R y)) by (rewrite <- (rne_id x) at 1; apply rne_le; lra).
  assert (Ly : B2R y <= rn64 (B2R x + B2R y)) by (rewrite <- (rne_id y) at 1; apply rne_le; lra).
  destruct (op_ok_finite (add64 x y) (B2R x + B2R y)) as (A & E); [now apply plus_ok| |rewrite E; auto].
  rewrite Rabs_pos_eq by lra. eapply Rle_lt_trans; [exact U|]. apply Rlt_trans with (bpow radix2 53 * bpow radix2 257).
  - apply Rmult_lt_compat_r; [apply bpow_gt_0|]. change (bpow radix2 53) with (IZR (2 ^ 53)). apply IZR_lt. lia.
  - rewrite <- bpow_plus. apply bpow_lt. lia.
Qed.

Lemma fold_include l : (forall v, In v l -> sized v) -> forall m, is_finite (value m) = true -> 0 <= B2R (value m) <= IZR (count m) * bpow radix2 257 ->
  (0 <= count m)%Z -> (count m + Z.of_nat (length l) <= 2 ^ 50)%Z ->
  let m' := fold_left Include l m in is_finite (value m') = true /\ B2R (value m) <= B2R (value m') <= IZR (count m') * bpow radix2 257 /\
    (count m <= count m' <= count m + Z.of_nat (length l))%Z /\
    forall v im, In v l -> is_finite (fst v) = true -> is_finite (snd v) = true -> bpow radix2 (-90) <= Rabs (B2R (part im v)) ->
      bpow radix2 (-180) <= B2R (value m') /\ (1 <= count m')%Z.
Proof.
  induction l as [|v l IH]; intros Hl m Fm Rm Pc Lc; cbn [fold_left length] in *.
  - split; trivial. split; [lra|]. split; [lia|]. easy.
  - assert (X : is_finite (value (Include m v)) = true /\ B2R (value m) <= B2R (value (Include m v)) <= IZR (count (Include m v)) * bpow radix2 257 /\
      (count m <= count (Include m v) <= count m + 1)%Z /\
      forall im, is_finite (fst v) = true -> is_finite (snd v) = true -> bpow radix2 (-90) <= Rabs (B2R (part im v)) ->
        bpow radix2 (-180) <= B2R (value (Include m v)) /\ (1 <= count (Include m v))%Z).
    { unfold Include. destruct (is_finite (fst v)) eqn:F1; cbn [andb]; [destruct (is_finite (snd v)) eqn:F2|].
      - cbn [value count]. pose proof (Hl v (or_introl eq_refl)) as Sv.
        destruct (square (fst v) F1 (Sv false F1)) as (A1 & A2 & A3). destruct (square (snd v) F2 (Sv true F2)) as (B1 & B2 & B3).
        assert (E257 : bpow radix2 257 = bpow radix2 256 + bpow radix2 256) by (change 257%Z with (1 + 256)%Z; rewrite bpow_plus; change (bpow radix2 1) with 2; ring).
        destruct (add_pos _ _ 1 A1 B1) as (C1 & C2 & C3 & C4); [lra|lra|lia|lra|].
        destruct (add_pos (value m) _ (count m + 1) Fm C1) as (D1 & D2 & D3 & D4); [lra|lra|lia|rewrite plus_IZR; lra|].
        split; trivial. split; [lra|]. split; [lia|]. intros im _ _ G. split; [|lia]. destruct im; cbn [part] in G; [specialize (B3 G)|specialize (A3 G)]; lra.
      - split; trivial. split; [lra|]. split; [lia|]. easy.
      - split; trivial. split; [lra|]. split; [lia|]. easy. }
    destruct X as (X1 & X2 & X3 & X4). destruct (IH (fun w I => Hl w (or_intror I)) (Include m v)) as (Y1 & Y2 & Y3 & Y4); trivial; [lra|lia|lia|].
    split; trivial. split; [lra|]. split; [lia|]. intros w im [<-|I] G1 G2 G3.
    + destruct (X4 im G1 G2 G3). split; [lra|lia].
    + now apply (Y4 w im).
Qed.

Lemma sqrt_lower (q : f64) i : is_finite q = true -> bpow radix2 (2 * i) <= B2R q -> (-900 <= i)%Z -> is_finite (sqrt64 q) = true /\ bpow radix2 i <= B2R (sqrt64 q).
Proof.
  intros F H Hi. destruct (Bsqrt_correct 53 1024 _ _ mode_NE q) as (E & Fs & _). split.
  - unfold sqrt64. rewrite Fs. pose proof (bpow_gt_0 radix2 (2 * i)). destruct q as [s|s| |[|] m e Hb]; try discriminate; trivial.
    exfalso. assert (B2R (B754_finite true m e Hb) <= 0) by (apply sign_le0; reflexivity). lra.
  - unfold sqrt64. rewrite E. cbn [round_mode]. rewrite <- (rne_bpow (p := 53) (e := 1024) i) by lia. apply rne_le. rewrite <- (sqrt_bpow radix2 i). now apply sqrt_le_1_alt.
Qed.

Lemma rms_lower l : (forall v, In v l -> sized v) -> (Z.of_nat (length l) <= 2 ^ 50)%Z ->
  (exists v im, In v l /\ is_finite (fst v) = true /\ is_finite (snd v) = true /\ bpow radix2 (-90) <= Rabs (B2R (part im v))) ->
  is_finite (RMS (fold_left Include l no_meas)) = true /\ bpow radix2 (-116) <= B2R (RMS (fold_left Include l no_meas)).
Proof.
  intros Hl Ll (v & im & I & F1 & F2 & G). destruct (fold_include l Hl no_meas) as (A & B & C & D); try reflexivity; try (cbn; lra || lia).
  destruct (D v im I F1 F2 G) as (D1 & D2). set (m := fold_left Include l no_meas) in *. cbn [count no_meas] in C.
  unfold RMS. apply sqrt_lower; [| |lia].
  all: assert (Ez : is_finite (of64 (count m * 2)) = true /\ B2R (of64 (count m * 2)) = IZR (count m * 2)) by (apply (ofZ_exact (p := 53) (e := 1024)); lia).
  all: destruct Ez as (Fz & Ez).
  all: assert (Rz : 2 <= IZR (count m * 2) <= bpow radix2 51) by (split; [apply IZR_le; lia|change (bpow radix2 51) with (IZR (2 ^ 51)); apply IZR_le; lia]).
  all: assert (Mz : TbeReal.mag 1 51 (of64 (count m * 2))) by (split; trivial; rewrite Ez, Rabs_pos_eq by lra; change (bpow radix2 1) with 2; lra).
  all: assert (Mv : TbeReal.mag (-180) 307 (value m)).
  1,3: split; trivial; pose proof (bpow_gt_0 radix2 (-180)); rewrite Rabs_pos_eq by lra; split; trivial; eapply Rle_trans; [apply B|];
       change 307%Z with (50 + 257)%Z; rewrite bpow_plus; apply Rmult_le_compat_r; [apply bpow_ge_0|]; change (bpow radix2 50) with (IZR (2 ^ 50)); apply IZR_le; lia.
  all: destruct (div_mag _ _ _ _ _ _ Mv Mz) as ((Q1 & Q2 & _) & t & Ht & Eq); [lia|lia|]; trivial.
  rewrite Rabs_pos_eq in Q2.
  - eapply Rle_trans; [|exact Q2]. apply bpow_le. lia.
  - rewrite Eq. apply Rmult_le_pos; [|apply Rlt_le; now apply (T_pos v64 v64_ok _ _ Ht)]. rewrite Ez. unfold Rdiv. apply Rmult_le_pos.
    + pose proof (bpow_gt_0 radix2 (-180)). lra.
    + apply Rlt_le, Rinv_0_lt_compat. lra.
Qed.

Lemma of_chan_length {A} i (data : list (drow A)) : (length (of_chan i data) <= length data)%nat.
Proof. unfold of_chan. induction data as [|r data IH]; cbn; [lia|]. rewrite app_length. destruct (nth_error (visibilities r) i); cbn; lia. Qed.

Lemma f32_sized (v : cf) : sized (widen v).
Proof.
  intros im F. rewrite part_widen in *. rewrite to64_finite in F. destruct (to64_val _ F) as (_ & E). rewrite E. pose proof (B2R_bounds (part im v)). apply Rabs_le. lra.
Qed.

Lemma chan_lower b i : (Z.of_nat (length b) <= 2 ^ 50)%Z -> signal i b ->
  is_finite (chan_rms i (map wide b)) = true /\ bpow radix2 (-116) <= B2R (chan_rms i (map wide b)).
Proof.
  intros Lb (row & v & im & I & N & F1 & F2 & G). apply rms_lower.
  - intros w J. apply of_chan_In in J. destruct J as (r & J & Nw). apply in_map_iff in J. destruct J as (r0 & <- & J). cbn [visibilities wide] in Nw.
    rewrite nth_error_map in Nw. destruct (nth_error (visibilities r0) i); [|discriminate]. injection Nw as <-. apply f32_sized.
  - pose proof (of_chan_length i (map wide b)). rewrite map_length in *. lia.
  - exists (widen v), im. split; [|split; [|split]].
    + apply of_chan_In. exists (wide row). split; [now apply in_map|]. cbn [visibilities wide]. now rewrite nth_error_map, N.
    + cbn. now rewrite to64_finite.
    + cbn. now rewrite to64_finite.
    + rewrite part_widen. assert (F : is_finite (part im v) = true) by now destruct im. destruct (to64_val _ F) as (_ & E). now rewrite E.
Qed.

(** ** The first fit *)
Lemma init_bounded nPol nChan nAnt (L : f64) (D : list (drow cd)) i : is_finite L = true -> 0 < B2R L -> bpow radix2 (-150) <= B2R L <= bpow radix2 128 ->
  (i < nPol * nChan)%nat -> let F := channel_factor L (chan_max i D) in is_finite F = true -> bpow radix2 (-256) <= B2R F <= bpow radix2 256 ->
  shaped nPol nChan nAnt D -> bounded L i (fit1 L D).
Proof.
  intros FL PL RL Hi F FF RF Hs r' v' (I & Hx & Nv) C'. unfold fit1 in I. apply in_map_iff in I. destruct I as (r & <- & I).
  change (is_cross r = true) in Hx. cbn [visibilities remap] in Nv. rewrite imap_nth in Nv. destruct (nth_error (visibilities r) i) as [v|] eqn:Ev; [|discriminate].
  cbn [option_map] in Nv. injection Nv as <-. change (channel_factor L (chan_max i D)) with F in C' |- *. pose proof (bpow_gt_0 radix2 (-256)) as P256.
  assert (C : cnt v) by (apply (cnt_mul_inv v F); trivial; lra).
  destruct (maxf_local (of_chan i (crosses D))) as (Fm & Pm & Hm & _). fold (chan_max i D) in Fm, Pm, Hm.
  assert (Hv : val v <= B2R (chan_max i D)). { apply Hm; trivial. apply of_chan_In. exists r. split; trivial. unfold crosses. apply filter_In. now split. }
  assert (P48 := p48). assert (Ph : B2R L <= high L) by (unfold high; nra). pose proof (val_pos v) as Pv.
  set (m := chan_max i D) in *. destruct (Req_dec (B2R m) 0) as [Z|Nz].
  - assert (E0 : val v = 0) by lra. destruct (cnt_mul v F FF ltac:(lra) C) as (_ & E).
    + rewrite E0, Rmult_0_l, rne_0. apply bpow_gt_0.
    + rewrite E, E0, Rmult_0_l, rne_0. lra.
  - assert (EF : F = div64 L m).
    { unfold F, channel_factor. destruct (is0 L) eqn:E1; [apply (is0_val L FL) in E1; lra|]. destruct (is0 m) eqn:E2; [apply (is0_val m Fm) in E2; lra|]. reflexivity. }
    assert (O : op_ok F (B2R L / B2R m)) by (rewrite EF; now apply div_ok). pose proof (op_value F _ O FF) as VF.
    pose proof (pos_round _ _ (-256) (eq_sym VF) (proj1 RF) ltac:(lia)) as Ql. pose proof (pos_round_up _ _ 256 (eq_sym VF) (proj2 RF) ltac:(lia)) as Qu.
    pose proof (bpow_gt_0 radix2 (-256 - 1)) as P257.
    destruct (op_mag F _ (-257) 257 O) as (_ & t & Ht & Et); [rewrite Rabs_pos_eq by lra; split; trivial|lia|lia|].
    assert (Em : B2R m * B2R F = B2R L * t) by (rewrite Et; field; lra).
    apply T8 in Ht; [|lia]. pose proof (T_1 v64) as _. apply Rabs_le_inv in Ht.
    assert (Hprod : val v * B2R F <= B2R L * t) by (rewrite <- Em; apply Rmult_le_compat_r; lra).
    assert (T51 : B2R m * B2R F <= B2R L * (1 + / 1125899906842624)).
    { pose proof O as _. rewrite Em. apply Rmult_le_compat_l; [lra|].
      assert (Q : Rabs (rn64 (B2R L / B2R m) - B2R L / B2R m) <= / 4503599627370496 * Rabs (B2R L / B2R m)).
      { apply rn64_rel. rewrite Rabs_pos_eq by lra. eapply Rle_trans; [|exact Ql]. apply bpow_le. lia. }
      rewrite <- VF, Et, Rabs_pos_eq with (x := B2R L / B2R m) in Q by lra. set (u := B2R L / B2R m) in *.
      replace (u * t - u) with ((t - 1) * u) in Q by ring. rewrite Rabs_mult, (Rabs_pos_eq u) in Q by lra.
      apply Rmult_le_reg_r in Q; [|lra]. apply Rabs_le_inv in Q. lra. }
    assert (RN : rn64 (val v * B2R F) <= high L).
    { apply Rle_trans with (rn64 (B2R L * (1 + / 1125899906842624))).
      - apply rne_le. rewrite Em in T51. lra.
      - assert (Q : Rabs (rn64 (B2R L * (1 + / 1125899906842624)) - B2R L * (1 + / 1125899906842624)) <= / 4503599627370496 * Rabs (B2R L * (1 + / 1125899906842624))).
        { apply rn64_rel. rewrite Rabs_pos_eq by lra. apply Rle_trans with (B2R L); [|lra]. eapply Rle_trans; [|apply RL]. apply bpow_le. lia. }
        rewrite (Rabs_pos_eq (B2R L * (1 + / 1125899906842624))) in Q by lra. apply Rabs_le_inv in Q. unfold high.
        assert (E48 : bpow radix2 (-48) = / 281474976710656) by (cbn; lra). rewrite E48. lra. }
    destruct (cnt_mul v F FF ltac:(lra) C) as (_ & E); [|now rewrite E].
    eapply Rle_lt_trans; [exact RN|]. unfold high. apply Rle_lt_trans with (bpow radix2 128 * 2); [nra|].
    change 2 with (bpow radix2 1). rewrite <- bpow_plus. apply bpow_lt. lia.
Qed.

(** ** One sample *)
Lemma part_cdiv im v f : part im (cdiv v f) = div64 (part im v) f.
Proof. now destruct im. Qed.
Lemma div_nan_l (x y : f64) : is_nan x = true -> is_nan (div64 x y) = true.
Proof. destruct x; try discriminate. now destruct y. Qed.

Lemma sample_ops_nan nPol ops r i im : forall v, is_nan (part im v) = true -> is_nan (part im (sample_ops nPol ops r i v)) = true.
Proof.
  induction ops as [|o ops IH]; intros v H; trivial. apply (IH (sc (fac o) (hits nPol o r i) v)). rewrite part_sc.
  generalize (hits nPol o r i). intros k. induction k as [|k IHk]; trivial. now apply mul_nan_l.
Qed.

Section Sample.
Context (nPol nChan nAnt : nat) (e : encoder) (L : f32) (b : tbb cf) (row : drow cf) (i : nat) (A : nat -> list f64) (ops : list op).
Notation n := (nPol * nChan)%nat.
Notation data := (map wide b).
Context (V : levels e L) (Hs : shaped nPol nChan nAnt b) (Hrow : In row b) (Hi : (i < n)%nat) (Lb : (Z.of_nat (length b) <= 2 ^ 50)%Z) (Sg : signal i b).
Context (St : steps nPol nChan nAnt (to64 L) ops (fit1 (to64 L) (data2 nPol A (data1 data)))).
Context (Hh : forall r i, (length (hitting nPol r i ops) <= 4)%nat).
Let c := chan_meta nPol nChan nAnt (to64 L) data A ops i.
Let a1 := ant_meta nPol nChan nAnt A ops (i mod nPol) (antenna1 row).
Let a2 := ant_meta nPol nChan nAnt A ops (i mod nPol) (antenna2 row).
Context (Gc : usable c) (Ga1 : usable a1) (Ga2 : usable a2).
Notation final := (fin nPol (to64 L) data A ops (wide row) i).

Lemma hits2 o (r : drow cd) j : (hits nPol o r j <= 2)%nat.
Proof. destruct o; cbn; [destruct (_ =? _)%nat; lia|]. destruct (_ =? _)%nat; [|lia]. unfold uses. destruct (_ =? _)%nat, (_ =? _)%nat; lia. Qed.

Lemma base_goods : usable (to32 (div64 (to64 (to32 (chan_rms i data))) (cfit nPol (to64 L) data A i))) /\
  usable (to32 (nth (antenna1 row) (A (i mod nPol)%nat) zero64)) /\ usable (to32 (nth (antenna2 row) (A (i mod nPol)%nat) zero64)).
Proof. split; [|split]; eapply ops_good; eauto. Qed.

Lemma rms_ok : is_finite (chan_rms i data) = true /\ bpow radix2 (-116) <= B2R (chan_rms i data) /\ is0 (chan_rms i data) = false.
Proof.
  destruct (chan_lower b i Lb Sg) as (F & G). split; trivial. split; trivial. destruct (is0 (chan_rms i data)) eqn:E; trivial.
  apply (is0_val _ F) in E. pose proof (bpow_gt_0 radix2 (-116)). lra.
Qed.

Lemma sample_related v im : is_finite (part im v) = true -> is_finite (part im (final (widen v))) = true /\
  related 34 (B2R (part im (final (widen v)))) (B2R c) (B2R a1 * B2R a2) (B2R (part im v)).
Proof.
  intros Fv. destruct base_goods as (G0 & G1 & G2). destruct rms_ok as (FR & GR & ZR). destruct (to64_val _ Fv) as (Fx & Ex).
  assert (RX : B2R (part im v) <> 0 -> bpow radix2 (-149) <= Rabs (B2R (part im v)) <= bpow radix2 128).
  { intros N. destruct (f32_mag _ Fv N) as (_ & Q). rewrite Ex in Q. exact Q. }
  destruct (base (to64 (part im v)) (chan_rms i data) (nth (antenna1 row) (A (i mod nPol)%nat) zero64) (nth (antenna2 row) (A (i mod nPol)%nat) zero64)
    (cfit nPol (to64 L) data A i) Fx) as (_ & _ & Fy & Ry); trivial; [now rewrite Ex|].
  rewrite Ex in Ry. destruct (proj2 Hs row Hrow) as (H1 & H2).
  assert (Tot : (total nPol (wide row) i ops <= 8)%nat).
  { pose proof (total_hitting nPol nChan nAnt (wide row) i Hi H1 H2 2 ops (fun o => hits2 o (wide row) i)) as Q. specialize (Hh (wide row) i). lia. }
  assert (Ep : part im (cmul (cmul (ch_norm (chan_rms i data) (widen v)) (ant_norm (A (i mod nPol)%nat) (wide row))) (cfit nPol (to64 L) data A i)) =
    mul64 (mul64 (div64 (to64 (part im v)) (chan_rms i data)) (ant_norm (A (i mod nPol)%nat) (wide row))) (cfit nPol (to64 L) data A i)).
  { rewrite !part_cmul. unfold ch_norm. rewrite ZR, part_cdiv, part_widen. reflexivity. }
  destruct (ops_step nPol nChan nAnt (wide row) i Hi H1 H2 (to64 L) im ops (fit1 (to64 L) (data2 nPol A (data1 data)))
    (cmul (cmul (ch_norm (chan_rms i data) (widen v)) (ant_norm (A (i mod nPol)%nat) (wide row))) (cfit nPol (to64 L) data A i))
    (to32 (div64 (to64 (to32 (chan_rms i data))) (cfit nPol (to64 L) data A i)))
    (to32 (nth (antenna1 row) (A (i mod nPol)%nat) zero64)) (to32 (nth (antenna2 row) (A (i mod nPol)%nat) zero64)) (B2R (part im v)) 10 St)
    as (B1 & B2); trivial.
  - lia.
  - exact (eq_trans (f_equal (@is_finite 53 1024) Ep) Fy).
  - destruct Ry as (t & Ht & E). exists t. split; [exact Ht|]. etransitivity; [|exact E]. apply f_equal2; [|reflexivity]. apply f_equal2; [|reflexivity].
    exact (f_equal (@B2R 53 1024) Ep).
  - split; [exact B1|]. destruct B2 as (t & Ht & E). exists t. split; [|exact E]. apply (T_weaken v32 v32_ok _ 34) in Ht; trivial. lia.
Qed.

Lemma sample_nan v im : is_nan (part im v) = true -> is_nan (part im (final (widen v))) = true.
Proof.
  intros N. unfold fin. apply sample_ops_nan. rewrite !part_cmul. do 2 apply mul_nan_l. unfold ch_norm.
  destruct (is0 _); [now rewrite part_widen, to64_nan|]. rewrite part_cdiv, part_widen. apply div_nan_l. now rewrite to64_nan.
Qed.

Lemma sample_bounded v im : nth_error (visibilities row) i = Some v -> counted v -> is_finite (part im v) = true -> antenna1 row <> antenna2 row ->
  Rabs (B2R (part im (final (widen v)))) <= B2R L * (1 + bpow radix2 (-40)).
Proof.
  intros Nv (Cr & Ci) Fv Hx. pose proof (levels_finite e L V) as FL. pose proof (lv_pos e L V) as PL. destruct (L_range L FL PL) as (FL' & PL' & RL).
  destruct base_goods as (G0 & G1 & G2). destruct rms_ok as (FR & GR & ZR).
  destruct (base zero64 (chan_rms i data) (nth (antenna1 row) (A (i mod nPol)%nat) zero64) (nth (antenna2 row) (A (i mod nPol)%nat) zero64)
    (cfit nPol (to64 L) data A i)) as (FF & RF & _ & _); trivial; [cbn; lra|].
  assert (Hs2 : shaped nPol nChan nAnt (data2 nPol A (data1 data))) by (apply remap_shaped; apply remap_shaped; now apply wide_shaped).
  assert (Bd : bounded (to64 L) i (fit1 (to64 L) (data2 nPol A (data1 data)))) by (now apply (init_bounded nPol nChan nAnt)).
  apply (bounded_steps nPol nChan nAnt (to64 L) PL' RL i ops) in Bd; trivial; [|now apply remap_shaped].
  rewrite fin_data in Bd.
  assert (C : cnt (final (widen v))).
  { apply cnt_iff. split; [apply (sample_related v false); trivial|]. destruct Ci as [Ci|Ci]; [left; now apply (sample_related v true)|right; now apply (sample_nan v true)]. }
  assert (Hv : val (final (widen v)) <= high (to64 L)).
  { apply (Bd (remap (fin nPol (to64 L) data A ops) (wide row))); trivial. split; [|split].
    - apply in_map. now apply in_map.
    - unfold is_cross. cbn. apply Bool.negb_true_iff. now apply Nat.eqb_neq.
    - cbn [visibilities remap wide]. rewrite imap_nth, nth_error_map, Nv. reflexivity. }
  destruct (to64_val L FL) as (_ & EL). unfold high in Hv. rewrite EL in Hv.
  apply Rle_trans with (val (final (widen v))); [unfold val; destruct im; [apply Rmax_r|apply Rmax_l]|].
  eapply Rle_trans; [exact Hv|]. apply Rmult_le_compat_l; [lra|]. apply Rplus_le_compat_l. apply bpow_le. lia.
Qed.

Notation phi := (B2R c * B2R a1 * B2R a2).

Lemma phi_range : bpow radix2 (-378) <= phi <= bpow radix2 384.
Proof.
  change (-378)%Z with (-126 + -252)%Z. change 384%Z with (128 + 256)%Z. rewrite !bpow_plus, Rmult_assoc. pose proof (good_prod a1 a2 Ga1 Ga2).
  destruct Gc as (_ & G). pose proof (B2R_bounds c). pose proof (bpow_gt_0 radix2 (-126)). pose proof (bpow_gt_0 radix2 (-252)). split; apply Rmult_le_compat; lra.
Qed.

Lemma product_value : let F := mul64 (to64 c) (mul64 (to64 a1) (to64 a2)) in nice F /\ Rabs (B2R F - phi) <= bpow radix2 (-48) * phi.
Proof.
  assert (M : forall x, usable x -> TbeReal.mag (-126) 128 (to64 x) /\ B2R (to64 x) = B2R x).
  { intros x (Fx & Gx). destruct (to64_val x Fx) as (F & E). split; trivial. split; trivial. rewrite E. pose proof (B2R_bounds x). pose proof (bpow_gt_0 radix2 (-126)).
    rewrite Rabs_pos_eq by lra. lra. }
  destruct (M c Gc) as (Mc & Ec). destruct (M a1 Ga1) as (M1 & E1). destruct (M a2 Ga2) as (M2 & E2).
  destruct (mul_mag _ _ _ _ _ _ M1 M2) as (Mm & t & Ht & Em); [lia|lia|]. destruct (mul_mag _ _ _ _ _ _ Mc Mm) as (MF & u & Hu & EF); [lia|lia|].
  intros F. split.
  - split; [apply MF|]. right. eapply mag_weaken; [exact MF|lia|lia].
  - unfold F. rewrite EF, Em, Ec, E1, E2. assert (Htu : T v64 2 (t * u)) by now apply (T_mult v64 v64_ok 1 1). apply T8 in Htu; [|lia].
    replace (B2R c * (B2R a1 * B2R a2 * t) * u - phi) with ((t * u - 1) * phi) by ring. rewrite Rabs_mult. pose proof phi_range. pose proof (bpow_gt_0 radix2 (-378)).
    rewrite (Rabs_pos_eq phi) by lra. apply Rmult_le_compat_r; lra.
Qed.

Lemma err_alg (y P x t u : R) : y * P = x * t -> u * P - x = (u - y) * P + x * (t - 1).
Proof. intros E. rewrite Rmult_minus_distr_r, E. ring. Qed.

(** the error of one component *)
Lemma sample_error g k v im : nth_error (visibilities row) i = Some v -> counted v -> is_finite (part im v) = true ->
  B2R L * phi <= bpow radix2 125 -> (antenna1 row <> antenna2 row \/ Rabs (B2R (part im v)) <= (1 - bpow radix2 (-17)) * B2R L * phi) ->
  let tol := bpow radix2 (-17) * B2R L * phi + bpow radix2 (-149) * (1 + phi) in
  forall s q w, enc_value e (Some g) k (part im (final (widen v))) = Ok s -> Decode e s = Ok q ->
    w = to32 (mul64 (to64 q) (mul64 (to64 c) (mul64 (to64 a1) (to64 a2)))) ->
  Rabs (B2R (part im v)) <= (1 + bpow radix2 (-17)) * B2R L * phi /\
  exists j lo hi, is_finite w = true /\ nth_error (dec e) j = Some lo /\ nth_error (dec e) (S j) = Some hi /\
    B2R lo * phi - tol <= B2R (part im v) <= B2R hi * phi + tol /\
    Rabs (B2R w - B2R (part im v)) <= (B2R hi - B2R lo) * phi + tol.
Proof.
  intros Nv Cv Fv Hb Hcase tol s q w Es D Ew. destruct (sample_related v im Fv) as (Fy & t & Ht & Ey).
  set (y := part im (final (widen v))) in *. set (x := B2R (part im v)) in *.
  pose proof phi_range as Rphi. assert (Pphi : 0 < phi) by (pose proof (bpow_gt_0 radix2 (-378)); lra).
  replace (B2R y * B2R c * (B2R a1 * B2R a2)) with (B2R y * phi) in Ey by ring.
  pose proof (T_near v32 v32_ok 34 t) as Tn. replace (INR 34) with 34 in Tn by (cbn; lra). unfold v32 in Tn. specialize (Tn ltac:(lra) Ht).
  assert (Hd : Rabs (t - 1) <= / 246723) by lra. clear Tn. apply Rabs_le_inv in Hd.
  assert (E17 : bpow radix2 (-17) = / 131072) by (cbn; lra). assert (E40 : bpow radix2 (-40) = / 1099511627776) by (cbn; lra).
  assert (E22 : bpow radix2 (-22) = / 4194304) by (cbn; lra).
  pose proof (lv_pos e L V) as PL. assert (PLp : 0 < B2R L * phi) by now apply Rmult_lt_0_compat.
  assert (Eabs : Rabs (B2R y) * phi = Rabs x * t).
  { rewrite <- (Rabs_pos_eq phi) at 1 by lra. rewrite <- Rabs_mult, Ey, Rabs_mult, (Rabs_pos_eq t) by lra. reflexivity. }
  assert (By : Rabs (B2R y) <= B2R L * (1 + bpow radix2 (-40))).
  { destruct Hcase as [Hx|Hx]; [now apply sample_bounded|]. apply Rmult_le_reg_r with phi; trivial. rewrite Eabs. rewrite E17 in Hx. rewrite E40. pose proof (Rabs_pos x). nra. }
  assert (Hx : Rabs x <= B2R L * phi * (1 + / 200000)).
  { assert (Q : Rabs x * t <= B2R L * phi * (1 + / 1099511627776)) by (rewrite <- Eabs; apply Rmult_le_compat_r with (r := phi) in By; [|lra]; rewrite E40 in By; lra).
    pose proof (Rabs_pos x). nra. }
  split; [rewrite E17, (Rmult_assoc _ (B2R L) phi); lra|].
  destruct (quantized e L g k y V Fy By) as (s' & q' & j & lo & hi & u & Es' & D' & Fq & Bq & Nlo & Nhi & Bu & Gq & Eu).
  rewrite Es in Es'. injection Es' as <-. rewrite D in D'. injection D' as <-. rewrite E22 in Bq, Eu. set (L1 := B2R L * (1 + / 4194304)) in *.
  assert (PL1 : 0 < L1) by (unfold L1; lra).
  destruct product_value as (NF & EF). set (F := mul64 (to64 c) (mul64 (to64 a1) (to64 a2))) in *.
  assert (P48 : 0 < bpow radix2 (-48) <= / 281474976710656) by apply p48.
  assert (E47 : bpow radix2 (-47) = 2 * bpow radix2 (-48)) by (change (-47)%Z with (1 + -48)%Z; rewrite bpow_plus; cbn; lra).
  assert (Pe : 0 < eta) by apply eta_pos.
  assert (E149 : bpow radix2 (-149) = 2 * eta) by (unfold eta; change (-149)%Z with (1 + -150)%Z; rewrite bpow_plus; reflexivity).
  (* error before decoding *)
  assert (e1 : Rabs (u * phi - x) <= / 160000 * (B2R L * phi) + eta * phi).
  { assert (Q0 : u * phi - x = (u - B2R y) * phi + x * (t - 1)) by exact (err_alg _ _ _ _ _ Ey). rewrite Q0.
    eapply Rle_trans; [apply Rabs_triang|]. rewrite (Rabs_mult (u - B2R y)), (Rabs_mult x), (Rabs_pos_eq phi) by lra.
    assert (Q1 : Rabs (u - B2R y) * phi <= (u32 * Rabs (B2R y) + eta + / 4194304 * B2R L) * phi) by (apply Rmult_le_compat_r; lra).
    assert (Q2 : Rabs x * Rabs (t - 1) <= B2R L * phi * (1 + / 200000) * / 246723).
    { apply Rmult_le_compat; trivial; try apply Rabs_pos. apply Rabs_le. lra. }
    assert (Q3 : Rabs (B2R y) * phi <= B2R L * phi * (1 + / 1099511627776)) by (rewrite E40 in By; apply Rmult_le_compat_r with (r := phi) in By; lra).
    rewrite u32_val in Q1. lra. }
  assert (BqF : Rabs (B2R q * B2R F) <= bpow radix2 126).
  { rewrite Rabs_mult. assert (Rabs (B2R F) <= 1.5 * phi).
    { replace (B2R F) with ((B2R F - phi) + phi) by ring. eapply Rle_trans; [apply Rabs_triang|]. rewrite (Rabs_pos_eq phi) by lra. nra. }
    apply Rle_trans with (L1 * (1.5 * phi)); [apply Rmult_le_compat; trivial; apply Rabs_pos|]. unfold L1.
    replace (bpow radix2 126) with (2 * bpow radix2 125) by (change 126%Z with (1 + 125)%Z; rewrite bpow_plus; reflexivity). pose proof (bpow_gt_0 radix2 125). lra. }
  destruct (decode_val q F Fq NF BqF) as (Fw & Ew'). rewrite <- Ew in Fw, Ew'.
  assert (Pu : 0 <= u32 + bpow radix2 (-47)) by (rewrite u32_val, E47; lra).
  pose proof (total_err x u (B2R q) (B2R w) phi (B2R F) L1 (B2R hi - B2R lo) _ _ _ (Rlt_le _ _ Pphi) (Rlt_le _ _ PL1) Pu Bq Gq e1 EF Ew') as TE.
  exists j, lo, hi. split; trivial. split; trivial. split; trivial.
  assert (Htol : / 160000 * (B2R L * phi) + eta * phi <= tol) by (unfold tol; rewrite E17, E149; nra).
  apply Rabs_le_inv in e1. split.
  - assert (B2R lo * phi <= u * phi <= B2R hi * phi) by (split; apply Rmult_le_compat_r; lra). lra.
  - eapply Rle_trans; [exact TE|]. unfold tol. rewrite E17, E149, E47, u32_val.
    set (h := bpow radix2 (-48)) in *. 
    assert (KL : L1 * phi = B2R L * phi * (1 + / 4194304)) by (unfold L1; ring).
    replace (L1 * (h * phi)) with (h * (L1 * phi)) by ring.
    replace ((/ 16777216 + 2 * h) * (L1 * (phi + h * phi))) with ((/ 16777216 + 2 * h) * (1 + h) * (L1 * phi)) by ring.
    rewrite KL.
    assert (K1 : h * (B2R L * phi) <= / 281474976710656 * (B2R L * phi)) by (apply Rmult_le_compat_r; lra).
    assert (K2 : (/ 16777216 + 2 * h) * (1 + h) <= / 16000000) by nra.
    assert (K3 : (/ 16777216 + 2 * h) * (1 + h) * (B2R L * phi) <= / 16000000 * (B2R L * phi)) by (apply Rmult_le_compat_r; lra).
    replace (/ 131072 * B2R L * phi) with (/ 131072 * (B2R L * phi)) by ring. nra.
Qed.
End Sample.

Lemma af_bound fuel e nPol nChan nAnt g b meta sym L r row : levels e L -> rows_of (nPol * nChan) b -> antennas_below nAnt b -> (0 < nChan)%nat ->
  (nChan + nAnt < fuel)%nat -> (af_MetaDataCount (length b) nPol nChan nAnt <= length meta)%nat -> (SymbolCount (length b) nPol nChan <= length sym)%nat ->
  (Z.of_nat (length b) <= 2 ^ 50)%Z -> nth_error b r = Some row ->
  exists meta' sym' out, af_encode fuel e nPol nChan nAnt (Some g) b meta sym = Some (Ok (meta', sym')) /\
    af_roundtrip fuel e nPol nChan nAnt (Some g) b meta sym r = Some (Ok out) /\ length out = (nPol * nChan)%nat /\
    forall i v im c a1 a2, nth_error (visibilities row) i = Some v -> counted v -> is_finite (part im v) = true -> signal i b ->
    nth_error meta' i = Some c -> usable c ->
    nth_error meta' (nPol * nChan + nAnt * (i mod nPol) + antenna1 row) = Some a1 -> usable a1 ->
    nth_error meta' (nPol * nChan + nAnt * (i mod nPol) + antenna2 row) = Some a2 -> usable a2 ->
    let phi := B2R c * B2R a1 * B2R a2 in let tol := bpow radix2 (-17) * B2R L * phi + bpow radix2 (-149) * (1 + phi) in
    B2R L * phi <= bpow radix2 125 ->
    (antenna1 row <> antenna2 row \/ Rabs (B2R (part im v)) <= (1 - bpow radix2 (-17)) * B2R L * phi) ->
    Rabs (B2R (part im v)) <= (1 + bpow radix2 (-17)) * B2R L * phi /\
    exists w j lo hi, nth_error out i = Some w /\ is_finite (part im w) = true /\
      nth_error (dec e) j = Some lo /\ nth_error (dec e) (S j) = Some hi /\
      B2R lo * phi - tol <= B2R (part im v) <= B2R hi * phi + tol /\
      Rabs (B2R (part im w) - B2R (part im v)) <= (B2R hi - B2R lo) * phi + tol.
Proof.
  intros V Hr Ha Hc Hf Hm Hsym Lb N. pose proof (levels_finite e L V) as FL. assert (Hs : shaped nPol nChan nAnt b) by now split.
  destruct (af_roundtrip_form nPol nChan nAnt e L b (lv_wf e L V) (lv_max e L V) FL (lv_pos e L V) Hs Hc) as (A & ops & HA & St & Hh & Form).
  destruct (Form fuel (Some g) meta sym r row Hf Hm Hsym N) as (meta' & sym' & out & E & C1 & C2 & Er & Lo & H).
  exists meta', sym', out. split; trivial. split; trivial. split; trivial.
  intros i v im c a1 a2 Nv Cv Fv Sg Nc Gc N1 G1 N2 G2 phi tol Hb Hcase. destruct (H i v im Nv) as (s & q & w & Es & Hs' & D & Nw & Pw).
  pose proof (nth_lt _ _ _ Nv) as Hi. rewrite (Hr row (nth_error_In _ _ N)) in Hi. destruct (stride_of nPol nChan i Hi) as (Hp & _ & _).
  destruct (Ha row (nth_error_In _ _ N)) as (H1 & H2).
  rewrite C1 in Nc by trivial. injection Nc as <-. rewrite C2 in N1 by trivial. injection N1 as <-. rewrite C2 in N2 by trivial. injection N2 as <-.
  destruct (sample_error nPol nChan nAnt e L b row i A ops V Hs (nth_error_In _ _ N) Hi Lb Sg St Hh Gc G1 G2 g _ v im Nv Cv Fv Hb Hcase s q (part im w) Es D Pw)
    as (X1 & j & lo & hi & X2 & X3 & X4 & X5 & X6).
  split; [exact X1|]. exists w, j, lo, hi. split; [exact Nw|]. split; [exact X2|]. split; [exact X3|]. split; [exact X4|]. split; [exact X5|exact X6].
Qed.
