(** Row and RF normalization: error bounds.  Proof file. *)
From Coq Require Import Reals Lra Psatz.
From Flocq Require Import Core.
From Verif Require Import Base BaseLemmas Floats FloatLemmas WeightProofs WeightMoreProofs TimeBlockBuffer DictSpec StochasticEncoder EncSpec StochasticEncoderProofs
  TimeBlockEncoders TbeSpec TbeLoops TbeRowRf TbeReal TbeErr.
Local Open Scope R_scope.

(** ** Round trips in functional form *)

Lemma part_widen im v : part im (widen v) = to64 (part im v).
Proof. now destruct im. Qed.
Lemma part_cmul im v f : part im (cmul v f) = mul64 (part im v) f.
Proof. now destruct im. Qed.

Lemma rds_ok {A} (l : list A) off n : (off + n <= length l)%nat -> exists l', rds l off n = Ok l' /\ length l' = n /\
  forall i, (i < n)%nat -> nth_error l' i = nth_error l (off + i).
Proof.
  intros H. unfold rds. rewrite (proj2 (Nat.leb_le _ _) H). eexists. split; [reflexivity|].
  split; [rewrite firstn_length, skipn_length; lia|]. intros i Hi. now rewrite nth_error_firstn_lt, nth_error_skipn_add.
Qed.

Section Decoded.
Context (e : encoder) (W : well_formed e) (d : option (nat -> Z)).

Lemma decode_holds n per r scaled sym factor : per = (n * 2)%nat -> length (visibilities scaled) = n ->
  holds e d n (r * (n * 2)) scaled n sym -> (forall i, (i < n)%nat -> exists f, factor i = Ok f) ->
  exists out, decode_row e n per sym r factor = Ok out /\ length out = n /\
    forall i v im, nth_error (visibilities scaled) i = Some v -> exists f s q w, factor i = Ok f /\
      enc_value e d (r * (n * 2) + i * 2 + b2n im) (part im v) = Ok s /\ (s < QuantizationCount e)%nat /\ Decode e s = Ok q /\
      nth_error out i = Some w /\ part im w = to32 (mul64 (to64 q) f).
Proof.
  intros -> Len H Hf.
  assert (B : forall i v im, nth_error (visibilities scaled) i = Some v -> exists s, enc_value e d (r * (n * 2) + i * 2 + b2n im) (part im v) = Ok s /\
    (s < QuantizationCount e)%nat /\ nth_error sym (r * (n * 2) + i * 2 + b2n im) = Some s).
  { intros i v im N. pose proof (nth_lt _ _ _ N) as Hi. destruct (H i v) as (s & s' & E & E' & Ns & Ns'); [lia|trivial|].
    destruct im; cbn [b2n part].
    - exists s'. split; trivial. split; trivial. destruct (enc_value_total e d (r * (n * 2) + i * 2 + 1) (snd v) W) as (x & A & C). congruence.
    - rewrite Nat.add_0_r. exists s. split; trivial. split; trivial. destruct (enc_value_total e d (r * (n * 2) + i * 2) (fst v) W) as (x & A & C). congruence. }
  destruct (decode_row_ok e n (n * 2) sym r factor W Hf) as (out & E & Lo & HO).
  - intros k Hk. assert (Hi : (k / 2 < n)%nat) by (apply Nat.div_lt_upper_bound; lia). rewrite <- Len in Hi.
    destruct (nth_some _ _ Hi) as (v & N). pose proof (Nat.div_mod k 2) as DM. pose proof (Nat.mod_upper_bound k 2) as MU.
    destruct (B _ v (k mod 2 =? 1)%nat N) as (s & _ & Hs & Ns). exists s. split; trivial. rewrite <- Ns. f_equal.
    destruct (Nat.eqb_spec (k mod 2) 1); cbn [b2n]; lia.
  - exists out. split; trivial. split; trivial. intros i v im N. pose proof (nth_lt _ _ _ N) as Hi. rewrite Len in Hi.
    destruct (HO i Hi) as (f & s & s' & q & q' & Ef & Ns & D & Ns' & D' & No). destruct (B i v im N) as (s0 & E0 & L0 & N0).
    destruct im; cbn [b2n] in *.
    + rewrite Ns' in N0. injection N0 as <-. exists f, s', q', (to32 (mul64 (to64 q) f), to32 (mul64 (to64 q') f)). repeat split; trivial.
    + rewrite Nat.add_0_r in *. rewrite Ns in N0. injection N0 as <-. exists f, s, q, (to32 (mul64 (to64 q) f), to32 (mul64 (to64 q') f)). repeat split; trivial.
Qed.

Lemma row_roundtrip_form nPol nChan b meta sym L r row : rows_of (nPol * nChan) b -> MaxQuantity e = Ok L ->
  (length b <= length meta)%nat -> (SymbolCount (length b) nPol nChan <= length sym)%nat -> nth_error b r = Some row ->
  let n := (nPol * nChan)%nat in let M := row_M (wide row) in
  exists out, row_roundtrip e nPol nChan d b meta sym r = Ok out /\ length out = n /\
    forall i v im, nth_error (visibilities row) i = Some v -> exists s q w,
      enc_value e d (r * (n * 2) + i * 2 + b2n im) (mul64 (to64 (part im v)) (row_factor (to64 L) M)) = Ok s /\ (s < QuantizationCount e)%nat /\
      Decode e s = Ok q /\ nth_error out i = Some w /\ part im w = to32 (mul64 (to64 q) (to64 (to32 (div64 M (to64 L))))).
Proof.
  intros R EL Hm Hs N n M. destruct (row_encode_form e nPol nChan d b meta sym L W R EL Hm Hs) as (meta' & sym' & E & Lm & Ls & H & _).
  unfold row_roundtrip. rewrite E. cbn [bind]. destruct (H r row N) as (Nm & Hh). fold M in Nm.
  destruct (rds_ok meta' 0 (length b)) as (fs & Ef & Lf & Hf); [lia|]. unfold row_init. rewrite Ef. cbn [bind].
  assert (Lr : length (visibilities row) = n) by (apply R; eapply nth_error_In; eauto).
  assert (Nf : rd (map to64 fs) r = Ok (to64 (to32 (div64 M (to64 L))))).
  { unfold rd. rewrite nth_error_map, Hf by (eapply nth_lt; eauto). cbn [Nat.add]. now rewrite Nm. }
  destruct (decode_holds n (SymbolsPerRow nPol nChan) r (row_scaled (to64 L) (wide row)) sym' (fun _ => rd (map to64 fs) r)) as (out & Eo & Lo & HO).
  - unfold SymbolsPerRow, n. lia.
  - cbn. now rewrite !map_length.
  - exact Hh.
  - intros i Hi. eauto.
  - exists out. split; [exact Eo|]. split; trivial. intros i v im Nv.
    destruct (HO i (cmul (widen v) (row_factor (to64 L) M)) im) as (f & s & q & w & A1 & A2 & A3 & A4 & A5 & A6).
    + cbn [visibilities row_scaled wide]. now rewrite !nth_error_map, Nv.
    + rewrite part_cmul, part_widen in A2. rewrite Nf in A1. injection A1 as <-. exists s, q, w. repeat split; trivial.
Qed.

Lemma rf_roundtrip_form nPol nChan b meta sym L r row : rows_of (nPol * nChan) b -> MaxQuantity e = Ok L ->
  (rf_MetaDataCount (length b) nPol nChan 0 <= length meta)%nat -> (SymbolCount (length b) nPol nChan <= length sym)%nat -> nth_error b r = Some row ->
  let n := (nPol * nChan)%nat in let data1 := map (rf_row1 nPol nChan (to64 L) nPol) (map wide b) in
  exists out, rf_roundtrip e nPol nChan d b meta sym r = Ok out /\ length out = n /\
    forall i v im, nth_error (visibilities row) i = Some v -> exists s q w,
      let M := rf_M nPol nChan (wide row) (i mod nPol) in let fC := channel_factor (to64 L) (rf_C data1 i) in
      enc_value e d (r * (n * 2) + i * 2 + b2n im) (mul64 (mul64 (to64 (part im v)) (row_factor (to64 L) M)) fC) = Ok s /\ (s < QuantizationCount e)%nat /\
      Decode e s = Ok q /\ nth_error out i = Some w /\
      part im w = to32 (mul64 (to64 q) (mul64 (to64 (to32 (div64 one64 fC))) (to64 (rf_meta (to64 L) M)))).
Proof.
  intros R EL Hm Hs N n data1. destruct (rf_encode_form e nPol nChan d b meta sym L W R EL Hm Hs) as (meta' & sym' & E & Lm & Ls & HC & H & _).
  fold n data1 in HC, H. unfold rf_roundtrip. rewrite E. cbn [bind]. destruct (H r row N) as (Nm & Hh).
  unfold rf_MetaDataCount in *. fold n.
  destruct (rds_ok meta' 0 n) as (cs & Ec & Lc & Hc); [unfold n; lia|]. destruct (rds_ok meta' n (nPol * length b)) as (rs & Er & Lrs & Hr); [unfold n; lia|].
  unfold rf_init. fold n. rewrite Ec. cbn [bind]. rewrite Er. cbn [bind].
  assert (Lr : length (visibilities row) = n) by (apply R; eapply nth_error_In; eauto). pose proof (nth_lt _ _ _ N) as Hrb.
  assert (F : forall i, (i < n)%nat -> (do c <- rd (fst (map to64 cs, map to64 rs)) i; do x <- rd (snd (map to64 cs, map to64 rs)) (r * nPol + i mod nPol); Ok (mul64 c x)) =
    Ok (mul64 (to64 (to32 (div64 one64 (channel_factor (to64 L) (rf_C data1 i))))) (to64 (rf_meta (to64 L) (rf_M nPol nChan (wide row) (i mod nPol)))))).
  { intros i Hi. cbn [fst snd]. unfold rd. destruct (stride_of nPol nChan i Hi) as (Hp & _ & _).
    rewrite !nth_error_map. rewrite Hc by trivial. cbn [Nat.add]. rewrite HC by trivial. cbn [option_map bind].
    rewrite Hr by nia. rewrite Nat.add_assoc. rewrite Nm by trivial. reflexivity. }
  destruct (decode_holds n (SymbolsPerRow nPol nChan) r (rf_y nPol nChan (to64 L) (map wide b) (wide row)) sym'
    (fun i => do c <- rd (fst (map to64 cs, map to64 rs)) i; do x <- rd (snd (map to64 cs, map to64 rs)) (r * nPol + i mod nPol); Ok (mul64 c x))) as (out & Eo & Lo & HO).
  - unfold SymbolsPerRow, n. lia.
  - cbn [visibilities rf_y rf_row2 rf_row1 wide]. now rewrite !imap_length, map_length.
  - exact Hh.
  - intros i Hi. rewrite F by trivial. eauto.
  - exists out. split; [exact Eo|]. split; trivial. intros i v im Nv. pose proof (nth_lt _ _ _ Nv) as Hi. rewrite Lr in Hi.
    destruct (stride_of nPol nChan i Hi) as (Hp & _ & _).
    destruct (HO i (cmul (cmul (widen v) (row_factor (to64 L) (rf_M nPol nChan (wide row) (i mod nPol)))) (channel_factor (to64 L) (rf_C data1 i))) im)
      as (f & s & q & w & A1 & A2 & A3 & A4 & A5 & A6).
    + cbn [visibilities rf_y rf_row2 rf_row1 wide]. rewrite !imap_nth, nth_error_map, Nv. cbn [option_map].
      fold n. rewrite (proj2 (Nat.ltb_lt i n) Hi). rewrite (proj2 (Nat.ltb_lt _ _) Hp). reflexivity.
    + rewrite !part_cmul, part_widen in A2. rewrite F in A1 by trivial. injection A1 as <-. exists s, q, w. repeat split; trivial.
Qed.
End Decoded.

(** ** Maxima of float components *)
Lemma counted_widen v : is_finite (component (widen v)) = true <-> counted v.
Proof.
  rewrite component_finite. unfold counted, widen. cbn [fst snd]. now rewrite !to64_finite, to64_nan.
Qed.

Lemma B2R_to64_counted v im : counted v -> B2R (to64 (part im v) : f64) = B2R (part im v).
Proof.
  intros (A & B). destruct im; cbn [part]; [|now apply to64_val]. destruct B as [B|B]; [now apply to64_val|].
  destruct (snd v); try discriminate. reflexivity.
Qed.

Lemma comp_val v : counted v -> B2R (component (widen v)) = Rmax (Rabs (B2R (fst v))) (Rabs (B2R (snd v))).
Proof.
  intros C. rewrite component_val by now apply counted_widen. cbn [widen fst snd].
  pose proof (B2R_to64_counted v false C) as A. pose proof (B2R_to64_counted v true C) as B. cbn [part] in A, B. now rewrite A, B.
Qed.

Lemma comp_parts v : counted v -> (forall im, Rabs (B2R (part im v)) <= B2R (component (widen v))) /\
  exists im, B2R (component (widen v)) = Rabs (B2R (part im v)).
Proof.
  intros C. rewrite comp_val by trivial. split.
  - intros [|]; cbn [part]; [apply Rmax_r|apply Rmax_l].
  - unfold Rmax. destruct (Rle_dec _ _); [now exists true|now exists false].
Qed.

Lemma part_mag v im : counted v -> B2R (part im v) <> 0 -> mag (-149) 128 (to64 (part im v)).
Proof.
  intros (A & B) N. apply f32_mag; trivial. destruct im; cbn [part] in *; trivial. destruct B as [B|B]; trivial.
  destruct (snd v); try discriminate. cbn in N. lra.
Qed.

Definition mags_in (l : list cf) (x : R) : Prop := exists v im, In v l /\ counted v /\ x = Rabs (B2R (part im v)).

Lemma largest_unique (P : R -> Prop) m N : (forall x, P x -> 0 <= x) -> largest P m -> (forall x, P x -> x <= N) -> N = 0 \/ P N -> 0 <= N -> m = N.
Proof.
  intros Pos (A0 & A & B) C D E. destruct B as [->|B], D as [->|D]; trivial; apply Rle_antisym; auto.
Qed.

Lemma max_mags l : let m := maxf (map component (map widen l)) in is_finite m = true /\ 0 <= B2R m /\
  (forall x, mags_in l x -> x <= B2R m) /\ (B2R m = 0 \/ mags_in l (B2R m)) /\ (B2R m = 0 \/ mag (-149) 128 m).
Proof.
  intros m. destruct (maxf_val (map component (map widen l))) as (A & B & C & D). fold m in A, B, C, D.
  split; [trivial|]. split; [trivial|]. split; [|].
  - intros x (v & im & I & Cv & ->). destruct (comp_parts v Cv) as (E & _). eapply Rle_trans; [apply E|]. apply C.
    + rewrite map_map. apply in_map_iff. eauto.
    + now apply counted_widen.
  - destruct D as [D|(c & I & F & D)]; [tauto|]. rewrite map_map in I. apply in_map_iff in I. destruct I as (v & <- & I). apply counted_widen in F.
    destruct (comp_parts v F) as (_ & im & E). split; [right; exists v, im; split; [trivial|split; [trivial|lra]]|].
    destruct (Req_dec (B2R m) 0) as [Z|N]; [now left|right]. split; trivial. rewrite D, E, Rabs_Rabsolu, <- B2R_to64_counted by trivial.
    apply part_mag; trivial. intros Z. rewrite Z, Rabs_R0 in E. lra.
Qed.

(** ** One component *)
Lemma component_err e L g k y x phi F e1 e2 s q : levels e L -> is_finite y = true -> Rabs (B2R y) <= B2R L * (1 + bpow radix2 (-40)) -> 0 <= phi ->
  (forall t, Rabs (t - B2R y) <= u32 * Rabs (B2R y) + eta + bpow radix2 (-22) * B2R L -> Rabs (t * phi - x) <= e1) ->
  nice F -> Rabs (B2R F - phi) <= e2 -> (1 + bpow radix2 (-22)) * (B2R L * (phi + e2)) <= bpow radix2 126 ->
  enc_value e (Some g) k y = Ok s -> Decode e s = Ok q ->
  exists j lo hi, nth_error (dec e) j = Some lo /\ nth_error (dec e) (S j) = Some hi /\
    B2R lo * phi - e1 <= x <= B2R hi * phi + e1 /\
    is_finite (to32 (mul64 (to64 q) F)) = true /\
    Rabs (B2R (to32 (mul64 (to64 q) F)) - x) <= (B2R hi - B2R lo) * phi + e1 + (1 + bpow radix2 (-22)) * (B2R L * e2 + (u32 + bpow radix2 (-47)) * (B2R L * (phi + e2))) + eta.
Proof.
  intros V Fy By Hphi H1 NF H2 HB E D. destruct (quantized e L g k y V Fy By) as (s' & q' & j & lo & hi & t & E' & D' & Fq & Bq & Nlo & Nhi & Bt & Gt & Et).
  rewrite E in E'. injection E' as <-. rewrite D in D'. injection D' as <-.
  pose proof (lv_pos e L V) as PL. exists j, lo, hi. split; trivial. split; trivial. specialize (H1 t Et). split.
  { apply Rabs_le_inv in H1. assert (B2R lo * phi <= t * phi <= B2R hi * phi) by (split; apply Rmult_le_compat_r; lra). lra. }
  assert (HF : Rabs (B2R F) <= phi + e2).
  { replace (B2R F) with ((B2R F - phi) + phi) by ring. eapply Rle_trans; [apply Rabs_triang|]. rewrite (Rabs_pos_eq phi) by trivial. lra. }
  destruct (decode_val q F Fq NF) as (Fd & Ed).
  - apply Rle_trans with (B2R L * (1 + bpow radix2 (-22)) * (phi + e2)); [|lra]. rewrite Rabs_mult. apply Rmult_le_compat; trivial; apply Rabs_pos.
  - split; trivial. pose proof (bpow_gt_0 radix2 (-22)). assert (0 <= B2R L * (1 + bpow radix2 (-22))) by (apply Rmult_le_pos; lra).
    eapply Rle_trans; [apply (total_err x t (B2R q) _ phi (B2R F) (B2R L * (1 + bpow radix2 (-22))) (B2R hi - B2R lo) e1 e2 (u32 + bpow radix2 (-47))); trivial|].
    + rewrite u32_val. pose proof (bpow_gt_0 radix2 (-47)). lra.
    + right. ring.
Qed.

Lemma L_mag e L : levels e L -> mag (-149) 128 (to64 L) /\ B2R (to64 L : f64) = B2R L.
Proof.
  intros V. pose proof (levels_finite e L V) as F. pose proof (lv_pos e L V). split; [apply f32_mag; trivial; lra|now apply to64_val].
Qed.

Lemma is0_false i j m : mag i j m -> is0 m = false.
Proof.
  intros H. destruct (is0 m) eqn:E; trivial. apply is0_val in E; [|apply H]. now apply mag_nz in H.
Qed.

Lemma row_factor_mag e L m : levels e L -> mag (-149) 128 m -> let f := row_factor (to64 L) m in
  mag (-277) 277 f /\ exists s, T v64 1 s /\ B2R f = B2R L / B2R m * s.
Proof.
  intros V Hm f. destruct (L_mag e L V) as (ML & EL). unfold f, row_factor. rewrite (is0_false _ _ _ Hm).
  destruct (div_mag (-149) 128 (-149) 128 (to64 L) m ML Hm) as (A & s & Hs & E); [lia|lia|]. split; [exact A|]. exists s. split; trivial. now rewrite E, EL.
Qed.

Lemma row_scale e L (x : f32) m : levels e L -> is_finite x = true -> mag (-149) 128 m -> 0 < B2R m -> Rabs (B2R x) <= B2R m ->
  let y := mul64 (to64 x) (row_factor (to64 L) m) in is_finite y = true /\ Rabs (B2R y) <= B2R L * (1 + bpow radix2 (-48)) /\
  (B2R x <> 0 -> mag (-426) 405 y) /\ exists s, T v64 2 s /\ B2R y = B2R x * (B2R L / B2R m) * s.
Proof.
  intros V Fx Hm Pm Hx y. destruct (to64_val x Fx) as (Fx' & Ex). destruct (row_factor_mag e L m V Hm) as (Mf & s & Hs & Ef).
  pose proof (lv_pos e L V) as PL. assert (PLm : 0 < B2R L / B2R m) by now apply Rdiv_lt_0_compat.
  assert (G : is_finite y = true /\ (B2R x <> 0 -> mag (-426) 405 y) /\ exists s, T v64 2 s /\ B2R y = B2R x * (B2R L / B2R m) * s).
  { destruct (Req_dec (B2R x) 0) as [Z|N].
    - destruct (mul_zero (to64 x) _ Fx' (proj1 Mf)) as (A & B); [lra|]. split; trivial. split; [lra|]. exists 1. split; [apply (T_weaken v64 v64_ok 0 2); [lia|apply T_1]|].
      unfold y. rewrite B, Z. ring.
    - destruct (mul_mag (-149) 128 (-277) 277 (to64 x) _ (f32_mag x Fx N) Mf) as (A & s' & Hs' & E); [lia|lia|].
      split; [apply A|]. split; [intros _; exact A|]. exists (s * s'). split; [now apply (T_mult v64 v64_ok 1 1)|]. unfold y. rewrite E, Ex, Ef. ring. }
  destruct G as (A & B & s2 & Hs2 & E). split; trivial. split; [|split; trivial; exists s2; now split].
  rewrite E. assert (Es : Rabs (s2 - 1) <= bpow radix2 (-48)) by (apply (T8 2); [lia|trivial]). apply Rabs_le_inv in Es. pose proof p48 as P48.
  rewrite !Rabs_mult, (Rabs_pos_eq (B2R L / B2R m)) by lra. rewrite (Rabs_pos_eq s2) by lra.
  apply Rmult_le_compat; try lra.
  - apply Rmult_le_pos; [apply Rabs_pos|lra].
  - apply Rle_trans with (B2R m * (B2R L / B2R m)); [apply Rmult_le_compat_r; lra|]. right. field. lra.
Qed.

Lemma b40_48 (L : R) : 0 < L -> L * (1 + bpow radix2 (-48)) <= L * (1 + bpow radix2 (-40)).
Proof. intros H. apply Rmult_le_compat_l; [lra|]. apply Rplus_le_compat_l. apply bpow_le. lia. Qed.

Lemma p47 : 0 < bpow radix2 (-47) <= / 140737488355328.
Proof. split; [apply bpow_gt_0|]. cbn. lra. Qed.

(** ** Row *)
Lemma row_largest row M : largest (row_mags row) M -> let m := row_M (wide row) in
  is_finite m = true /\ B2R m = M /\ 0 <= M /\ (M = 0 \/ mag (-149) 128 m).
Proof.
  intros HM m. destruct (max_mags (visibilities row)) as (A & B & C & D & E).
  assert (Q : M = B2R m).
  { apply (largest_unique (row_mags row)); trivial. intros x (v & im & _ & _ & ->). apply Rabs_pos. }
  fold m in A, E. rewrite Q. repeat split; trivial.
Qed.

Lemma row_bound e nPol nChan g b meta sym L r row M : levels e L -> rows_of (nPol * nChan) b ->
  (length b <= length meta)%nat -> (SymbolCount (length b) nPol nChan <= length sym)%nat -> nth_error b r = Some row ->
  largest (row_mags row) M -> M <= bpow radix2 125 -> M <= bpow radix2 127 * B2R L ->
  let phi := M / B2R L in let tol := bpow radix2 (-21) * M + bpow radix2 (-149) * (1 + B2R L + phi) in
  exists out, row_roundtrip e nPol nChan (Some g) b meta sym r = Ok out /\ length out = (nPol * nChan)%nat /\
    forall i v im, nth_error (visibilities row) i = Some v -> counted v -> is_finite (part im v) = true ->
    exists w j lo hi, nth_error out i = Some w /\ is_finite (part im w) = true /\
      nth_error (dec e) j = Some lo /\ nth_error (dec e) (S j) = Some hi /\
      B2R lo * phi - tol <= B2R (part im v) <= B2R hi * phi + tol /\
      Rabs (B2R (part im w) - B2R (part im v)) <= (B2R hi - B2R lo) * phi + tol.
Proof.
  intros V R Hm Hs N HM B1 B2 phi tol.
  destruct (row_roundtrip_form e (lv_wf e L V) (Some g) nPol nChan b meta sym L r row R (lv_max e L V) Hm Hs N) as (out & E & Lo & H).
  exists out. split; trivial. split; trivial. intros i v im Nv Cv Fv. destruct (H i v im Nv) as (s & q & w & Es & Hs' & D & Nw & Pw).
  destruct (row_largest row M HM) as (Fm & Em & PM & MM). set (m := row_M (wide row)) in *.
  destruct (L_mag e L V) as (ML & EL). pose proof (lv_pos e L V) as PL. pose proof eta_pos as Pe.
  assert (Pphi : 0 <= phi) by (unfold phi; apply Rmult_le_pos; [trivial|apply Rlt_le; now apply Rinv_0_lt_compat]).
  assert (Hx : Rabs (B2R (part im v)) <= M).
  { apply HM. exists v, im. repeat split; try apply Cv; trivial. eapply nth_error_In; eauto. }
  (* the scaled value *)
  assert (Y : exists y, mul64 (to64 (part im v)) (row_factor (to64 L) m) = y /\ is_finite y = true /\ Rabs (B2R y) <= B2R L * (1 + bpow radix2 (-40)) /\
    forall t, Rabs (t - B2R y) <= u32 * Rabs (B2R y) + eta + bpow radix2 (-22) * B2R L ->
      Rabs (t * phi - B2R (part im v)) <= (u32 + bpow radix2 (-47)) * M + eta * phi + bpow radix2 (-22) * B2R L * phi).
  { eexists. split; [reflexivity|]. pose proof p47 as P47. destruct MM as [Z|MM].
    - assert (Zx : B2R (part im v) = 0) by (rewrite Z in Hx; pose proof (Rabs_pos (B2R (part im v))); destruct (Req_dec (B2R (part im v)) 0) as [|Q]; trivial; apply Rabs_no_R0 in Q; lra).
      unfold row_factor. rewrite (proj2 (is0_val m Fm)) by lra. destruct (to64_val _ Fv) as (Fx & Ex). destruct one64_val as (F1 & E1).
      destruct (mul_zero (to64 (part im v)) one64 Fx F1) as (A & B); [lra|]. split; trivial. rewrite B, Rabs_R0. split.
      + apply Rmult_le_pos; [lra|]. pose proof (bpow_ge_0 radix2 (-40)). lra.
      + intros t _. unfold phi. rewrite Zx, Z. unfold Rdiv. rewrite Rmult_0_l, !Rmult_0_r, Rminus_0_r, Rabs_R0. lra.
    - pose proof (mag_nz _ _ _ MM) as Nm. destruct (row_scale e L (part im v) m V Fv MM) as (A & B & _ & s2 & Hs2 & E2); [lra|lra|].
      split; trivial. split; [eapply Rle_trans; [exact B|now apply b40_48]|]. intros t Ht.
      eapply Rle_trans; [eapply (scaled_err (B2R (part im v)) _ t phi s2 2 _); [| |exact Hs2| |exact Ht]|].
      + unfold phi. apply Rdiv_lt_0_compat; lra.
      + lia.
      + rewrite E2. unfold phi. rewrite <- Em. field. lra.
      + do 2 apply Rplus_le_compat_r. apply Rmult_le_compat_l; trivial. rewrite u32_val. lra. }
  destruct Y as (y & Ey & Fy & By & Hy). rewrite Ey in Es.
  (* the stored factor *)
  assert (FF : exists F, to64 (to32 (div64 m (to64 L))) = F /\ nice F /\ Rabs (B2R F - phi) <= (u32 + bpow radix2 (-47)) * phi + eta).
  { eexists. split; [reflexivity|]. assert (FL : is_finite (to64 L : f64) = true) by apply ML.
    assert (Q : is_finite (div64 m (to64 L)) = true /\ exists s, T v64 1 s /\ B2R (div64 m (to64 L)) = phi * s /\ Rabs (B2R (div64 m (to64 L))) <= bpow radix2 127).
    { destruct MM as [Z|MM].
      - destruct (op_ok_finite (div64 m (to64 L)) (B2R m / B2R (to64 L : f64))) as (A & B); [apply div_ok; trivial; lra| |].
        + rewrite Em, Z. unfold Rdiv. rewrite Rmult_0_l, rne_0, Rabs_R0. apply bpow_gt_0.
        + rewrite Em, Z in B. unfold Rdiv in B. rewrite Rmult_0_l, rne_0 in B. split; trivial. exists 1. split; [apply (T_weaken v64 v64_ok 0 1); [lia|apply T_1]|].
          rewrite B, Rabs_R0. split; [unfold phi; rewrite Z; unfold Rdiv; ring|apply bpow_ge_0].
      - destruct (div_mag (-149) 128 (-149) 128 m (to64 L) MM ML) as (A & s2 & Hs2 & E2); [lia|lia|]. split; [apply A|].
        exists s2. split; trivial. split; [rewrite E2, EL, Em; reflexivity|].
        assert (O : op_ok (div64 m (to64 L)) (B2R m / B2R (to64 L : f64))) by (apply div_ok; trivial; lra).
        destruct (op_ok_bounded _ _ 127 O) as (_ & _ & G); trivial; [|lia]. rewrite Em, EL. fold phi. rewrite Rabs_pos_eq by trivial.
        unfold phi. apply Rmult_le_reg_r with (B2R L); trivial. unfold Rdiv. rewrite Rmult_assoc, Rinv_l by lra. lra. }
    destruct Q as (Fd & s2 & Hs2 & E2 & B127). destruct (stored_err _ phi s2 1 Fd Pphi ltac:(lia) Hs2 E2 B127) as (Fs & Es2).
    split; [now apply f32_nice|]. destruct (to64_val _ Fs) as (_ & ->). exact Es2. }
  destruct FF as (F & EF & NF & HF). rewrite EF in Pw.
  pose proof p47 as P47. assert (ELphi : B2R L * phi = M) by (unfold phi; field; lra).
  assert (Lb : eta * B2R L <= / 4194304).
  { apply Rle_trans with (eta * bpow radix2 128); [|apply eta_big]. apply Rmult_le_compat_l; [lra|]. pose proof (B2R_bounds L). lra. }
  assert (Tol : bpow radix2 (-149) = 2 * eta) by (unfold eta; change (-149)%Z with (1 + -150)%Z; rewrite bpow_plus; reflexivity).
  assert (E22 : bpow radix2 (-22) = / 4194304) by (cbn; lra). assert (E21 : bpow radix2 (-21) = / 2097152) by (cbn; lra).
  assert (B126 : bpow radix2 126 = 2 * bpow radix2 125) by (change 126%Z with (1 + 125)%Z; rewrite bpow_plus; reflexivity).
  assert (B125 : 1 <= bpow radix2 125) by (change 1 with (bpow radix2 0); apply bpow_le; lia).
  set (c := u32 + bpow radix2 (-47)) in *. assert (Hc : 0 <= c <= / 16777000) by (unfold c; rewrite u32_val; lra).
  assert (PcM : 0 <= c * M <= / 16777000 * M) by (split; [apply Rmult_le_pos; lra|apply Rmult_le_compat_r; lra]).
  assert (Pep : 0 <= eta * phi) by (apply Rmult_le_pos; lra). assert (PeL : 0 <= eta * B2R L) by (apply Rmult_le_pos; lra).
  assert (EL2 : B2R L * (phi + (c * phi + eta)) = M + c * M + eta * B2R L) by (rewrite <- ELphi; ring).
  destruct (component_err e L g (r * (nPol * nChan * 2) + i * 2 + b2n im)%nat y (B2R (part im v)) phi F _ _ s q V Fy By Pphi Hy NF HF) as (j & lo & hi & Nlo & Nhi & Br & Fd & Ed); trivial.
  { rewrite EL2, E22. lra. }
  rewrite E22 in Br, Ed. rewrite (Rmult_assoc _ (B2R L) phi), ELphi in Br, Ed.
  exists w, j, lo, hi. rewrite Pw. repeat split; trivial.
  - unfold tol. rewrite Tol, E21. lra.
  - unfold tol. rewrite Tol, E21. lra.
  - fold c in Ed. eapply Rle_trans; [exact Ed|]. unfold tol. rewrite Tol, E21. rewrite EL2.
    replace (B2R L * (c * phi + eta)) with (c * M + eta * B2R L) by (rewrite <- ELphi; ring).
    assert (c * (M + c * M + eta * B2R L) <= c * M + / 16777000 * (c * M) + / 16777000 * (eta * B2R L)) by nra.
    lra.
Qed.

(** ** RF *)
Section RFBound.
Context (e : encoder) (L : f32) (V : levels e L) (nPol nChan : nat).
Notation n := (nPol * nChan)%nat.

Lemma of_pol_map {A B} (f : A -> B) p vis : of_pol nPol nChan p (map f vis) = map f (of_pol nPol nChan p vis).
Proof.
  unfold of_pol. induction (seq 0 nChan) as [|ch l IH]; cbn [flat_map map]; trivial. rewrite IH, nth_error_map, map_app.
  now destruct (nth_error vis (ch * nPol + p)).
Qed.

Lemma of_pol_mags row p : length (visibilities row) = n -> (p < nPol)%nat -> forall x, mags_in (of_pol nPol nChan p (visibilities row)) x <-> pol_mags nPol p row x.
Proof.
  intros Lr Hp x. split.
  - intros (v & im & I & C & ->). apply of_pol_In in I. destruct I as (ch & Hc & N). exists (ch * nPol + p)%nat, v, im. repeat split; trivial; try apply C. now apply stride_mod.
  - intros (i & v & im & N & Q & C & ->). exists v, im. split; [|split; trivial]. apply of_pol_In. pose proof (nth_lt _ _ _ N) as Hi. rewrite Lr in Hi.
    destruct (stride_of nPol nChan i Hi) as (_ & Hc & Ei). exists (i / nPol)%nat. split; trivial. rewrite <- Q, <- Ei. exact N.
Qed.

Lemma pol_nonneg p row x : pol_mags nPol p row x -> 0 <= x.
Proof. intros (i & v & im & _ & _ & _ & ->). apply Rabs_pos. Qed.

Lemma pol_largest row p : length (visibilities row) = n -> (p < nPol)%nat -> let m := rf_M nPol nChan (wide row) p in
  is_finite m = true /\ largest (pol_mags nPol p row) (B2R m) /\ (B2R m = 0 \/ mag (-149) 128 m).
Proof.
  intros Lr Hp m. assert (Em : m = maxf (map component (map widen (of_pol nPol nChan p (visibilities row))))).
  { unfold m, rf_M. cbn [visibilities wide]. now rewrite of_pol_map. }
  destruct (max_mags (of_pol nPol nChan p (visibilities row))) as (A & B & C & D & E). rewrite <- Em in *.
  split; trivial. split; trivial. split; trivial. split.
  - intros x H. apply C. now apply of_pol_mags.
  - destruct D as [D|D]; [now left|right; now apply of_pol_mags].
Qed.

Lemma pol_largest_eq row p M : length (visibilities row) = n -> (p < nPol)%nat -> largest (pol_mags nPol p row) M -> B2R (rf_M nPol nChan (wide row) p) = M.
Proof.
  intros Lr Hp HM. destruct (pol_largest row p Lr Hp) as (_ & (A & B & C) & _). symmetry. apply (largest_unique (pol_mags nPol p row)); trivial. apply pol_nonneg.
Qed.

(** a sample after the row scaling *)
Definition y1 (row : drow cf) (i : nat) (v : cf) : cd := cmul (widen v) (row_factor (to64 L) (rf_M nPol nChan (wide row) (i mod nPol))).

Lemma rowf_nz row p : length (visibilities row) = n -> (p < nPol)%nat ->
  let f := row_factor (to64 L) (rf_M nPol nChan (wide row) p) in is_finite f = true /\ B2R f <> 0.
Proof.
  intros Lr Hp f. destruct (pol_largest row p Lr Hp) as (A & _ & [Z|M]).
  - unfold f, row_factor. rewrite (proj2 (is0_val _ A) Z). destruct one64_val as (F1 & E1). split; trivial. lra.
  - destruct (row_factor_mag e L _ V M) as (Mf & _). split; [apply Mf|now apply mag_nz in Mf].
Qed.

(** finite parts of a counted sample *)
Lemma y1_part row i v im : length (visibilities row) = n -> (i mod nPol < nPol)%nat -> nth_error (visibilities row) i = Some v -> counted v -> is_finite (part im v) = true ->
  let y := part im (y1 row i v) in is_finite y = true /\ (B2R (part im v) <> 0 -> mag (-426) 405 y) /\ Rabs (B2R y) <= B2R L * (1 + bpow radix2 (-48)) /\
  exists s, T v64 2 s /\ forall M, largest (pol_mags nPol (i mod nPol) row) M -> B2R y = B2R (part im v) / M * B2R L * s.
Proof.
  intros Lr Hp N C F y. unfold y, y1. rewrite part_cmul, part_widen. set (m := rf_M nPol nChan (wide row) (i mod nPol)).
  destruct (pol_largest row (i mod nPol) Lr Hp) as (Fm & HM & MM). fold m in Fm, HM, MM. pose proof (lv_pos e L V) as PL.
  assert (Hx : Rabs (B2R (part im v)) <= B2R m) by (apply HM; exists i, v, im; repeat split; trivial; apply C).
  assert (EM : forall M, largest (pol_mags nPol (i mod nPol) row) M -> M = B2R m) by (intros M H; symmetry; now apply pol_largest_eq).
  destruct MM as [Z|MM].
  - assert (Zx : B2R (part im v) = 0) by (rewrite Z in Hx; pose proof (Rabs_pos (B2R (part im v))); destruct (Req_dec (B2R (part im v)) 0) as [|Q]; trivial; apply Rabs_no_R0 in Q; lra).
    destruct (rowf_nz row (i mod nPol) Lr Hp) as (Ff & _). fold m in Ff. destruct (to64_val _ F) as (Fx & Ex).
    destruct (mul_zero (to64 (part im v)) _ Fx Ff) as (A & B); [lra|]. split; trivial. split; [lra|]. rewrite B, Rabs_R0. split.
    + apply Rmult_le_pos; [lra|]. pose proof (bpow_ge_0 radix2 (-48)). lra.
    + exists 1. split; [apply (T_weaken v64 v64_ok 0 2); [lia|apply T_1]|]. intros M _. rewrite Zx. unfold Rdiv. ring.
  - pose proof (mag_nz _ _ _ MM) as Nm. destruct HM as (HM0 & _). destruct (row_scale e L (part im v) m V F MM) as (A & B & C2 & s & Hs & E); [lra|lra|].
    split; trivial. split; trivial. split; trivial. exists s. split; trivial. intros M H. rewrite (EM M H), E. field. trivial.
Qed.

Lemma mul_nan_l x y : is_nan x = true -> is_nan (mul64 x y) = true.
Proof. destruct x; try discriminate. now destruct y. Qed.
Lemma mul_inf x y : is_finite x = false -> is_nan x = false -> is_finite y = true -> B2R y <> 0 ->
  is_finite (mul64 x y) = false /\ is_nan (mul64 x y) = false.
Proof.
  destruct x as [s|s| |s m ex H]; try discriminate. intros _ _ F N. destruct y as [t|t| |t m ex H]; try discriminate; cbn; auto. cbn in N. lra.
Qed.

(** scaling by a finite non-zero number that does not overflow keeps [counted] *)
Lemma y1_counted row i v : length (visibilities row) = n -> (i mod nPol < nPol)%nat -> nth_error (visibilities row) i = Some v ->
  (is_finite (component (y1 row i v)) = true <-> counted v).
Proof.
  intros Lr Hp N. destruct (rowf_nz row (i mod nPol) Lr Hp) as (Ff & Nf). rewrite component_finite. split.
  - unfold y1, cmul, widen. cbn [fst snd]. intros (A & B). split.
    + destruct (is_finite (fst v)) eqn:F; trivial. rewrite mul64_not_finite in A; [discriminate|]. now rewrite to64_finite.
    + destruct (is_finite (snd v)) eqn:F; [now left|right]. destruct (is_nan (snd v)) eqn:Q; trivial.
      destruct (mul_inf (to64 (snd v)) (row_factor (to64 L) (rf_M nPol nChan (wide row) (i mod nPol)))) as (C & D); trivial; [now rewrite to64_finite|now rewrite to64_nan|].
      rewrite C, D in B. now destruct B.
  - intros C. split; [exact (proj1 (y1_part row i v false Lr Hp N C (proj1 C)))|]. destruct (is_finite (snd v)) eqn:F.
    + left. exact (proj1 (y1_part row i v true Lr Hp N C F)).
    + right. destruct C as (_ & [C|C]); [congruence|]. unfold y1, cmul, widen. cbn [snd]. apply mul_nan_l. now rewrite to64_nan.
Qed.

Lemma y1_comp row i v : length (visibilities row) = n -> (i mod nPol < nPol)%nat -> nth_error (visibilities row) i = Some v -> counted v ->
  (forall im, is_finite (part im v) = true -> Rabs (B2R (part im (y1 row i v))) <= B2R (component (y1 row i v))) /\
  exists im, is_finite (part im v) = true /\ B2R (component (y1 row i v)) = Rabs (B2R (part im (y1 row i v))).
Proof.
  intros Lr Hp N C. pose proof (proj2 (y1_counted row i v Lr Hp N) C) as F. rewrite component_val by trivial. split.
  - intros [|] _; cbn [part]; [apply Rmax_r|apply Rmax_l].
  - unfold Rmax. destruct (Rle_dec _ _) as [Q|Q].
    + destruct (is_finite (snd v)) eqn:G; [now exists true|]. exists false. cbn [part]. split; [apply C|].
      assert (Z : B2R (snd (y1 row i v)) = 0).
      { destruct C as (_ & [C|C]); [congruence|]. assert (is_nan (snd (y1 row i v)) = true) by (unfold y1, cmul, widen; cbn [snd]; apply mul_nan_l; now rewrite to64_nan).
        destruct (snd (y1 row i v)); try discriminate. reflexivity. }
      rewrite Z, Rabs_R0 in *. pose proof (Rabs_pos (B2R (fst (y1 row i v)))). lra.
    + exists false. cbn [part]. split; trivial. apply C.
Qed.

(** the channel maximum *)
Lemma channel_largest b i rho : rows_of n b -> (i < n)%nat -> largest (ratios nPol i b) rho ->
  let c := rf_C (map (rf_row1 nPol nChan (to64 L) nPol) (map wide b)) i in is_finite c = true /\
  (exists s, T v64 2 s /\ B2R c = B2R L * rho * s) /\ (rho = 0 \/ mag (-426) 405 c) /\ B2R c <= B2R L * (1 + bpow radix2 (-48)) /\
  (forall row v im, In row b -> nth_error (visibilities row) i = Some v -> counted v -> is_finite (part im v) = true ->
     Rabs (B2R (part im (y1 row i v))) <= B2R c).
Proof.
  intros R Hi (P0 & P1 & P2) c. destruct (stride_of nPol nChan i Hi) as (Hp & _ & _). pose proof (lv_pos e L V) as PL.
  assert (Ec : forall x, In x (of_chan i (map (rf_row1 nPol nChan (to64 L) nPol) (map wide b))) <-> exists row v, In row b /\ nth_error (visibilities row) i = Some v /\ x = y1 row i v).
  { intros x. rewrite of_chan_In. split.
    - intros (r & I & N). rewrite map_map in I. apply in_map_iff in I. destruct I as (row & <- & I). cbn [visibilities rf_row1 wide] in N.
      rewrite imap_nth, nth_error_map in N. destruct (nth_error (visibilities row) i) as [v|] eqn:Nv; [|discriminate]. cbn [option_map] in N.
      rewrite (proj2 (Nat.ltb_lt _ _) Hp) in N. injection N as <-. exists row, v. repeat split; trivial.
    - intros (row & v & I & N & ->). exists (rf_row1 nPol nChan (to64 L) nPol (wide row)). split; [rewrite map_map; apply in_map_iff; eauto|].
      cbn [visibilities rf_row1 wide]. rewrite imap_nth, nth_error_map, N. cbn [option_map]. now rewrite (proj2 (Nat.ltb_lt _ _) Hp). }
  destruct (maxf_val (map component (of_chan i (map (rf_row1 nPol nChan (to64 L) nPol) (map wide b))))) as (A & B & C & D).
  change (maxf (map component (of_chan i (map (rf_row1 nPol nChan (to64 L) nPol) (map wide b))))) with c in A, B, C, D.
  assert (Up : forall row v im, In row b -> nth_error (visibilities row) i = Some v -> counted v -> is_finite (part im v) = true -> Rabs (B2R (part im (y1 row i v))) <= B2R c).
  { intros row v im I N Cv F. destruct (y1_comp row i v (R row I) Hp N Cv) as (Q & _). eapply Rle_trans; [now apply Q|]. apply C.
    - apply in_map. apply Ec. eauto.
    - now apply y1_counted; try apply R. }
  (* the largest one is attained *)
  assert (At : B2R c = 0 \/ exists row v im, In row b /\ nth_error (visibilities row) i = Some v /\ counted v /\ is_finite (part im v) = true /\ B2R c = Rabs (B2R (part im (y1 row i v)))).
  { destruct D as [D|(x & I & F & D)]; [now left|right]. apply in_map_iff in I. destruct I as (w & <- & I). apply Ec in I. destruct I as (row & v & I & N & ->).
    apply y1_counted in F; trivial; [|now apply R]. destruct (y1_comp row i v (R row I) Hp N F) as (_ & im & G & E).
    exists row, v, im. repeat split; trivial; try apply F. lra. }
  assert (Val : forall row v im, In row b -> nth_error (visibilities row) i = Some v -> counted v -> is_finite (part im v) = true ->
    exists s x, T v64 2 s /\ Rabs (B2R (part im (y1 row i v))) = x * B2R L * s /\ ratios nPol i b x).
  { intros row v im I N Cv F. destruct (y1_part row i v im (R row I) Hp N Cv F) as (_ & _ & _ & s & Hs & E).
    destruct (pol_largest row (i mod nPol) (R row I) Hp) as (_ & HM & _). specialize (E _ HM). pose proof (T_pos v64 v64_ok _ _ Hs) as Ps.
    exists s, (Rabs (B2R (part im v)) / B2R (rf_M nPol nChan (wide row) (i mod nPol))). split; trivial. split.
    - rewrite E, !Rabs_mult, (Rabs_pos_eq s), (Rabs_pos_eq (B2R L)) by lra. unfold Rdiv. rewrite Rabs_mult, Rabs_inv, (Rabs_pos_eq (B2R (rf_M _ _ _ _))) by exact (proj1 HM). reflexivity.
    - exists row, v, im, (B2R (rf_M nPol nChan (wide row) (i mod nPol))). split; [exact I|]; split; [exact N|]; split; [exact Cv|]; split; [exact HM|reflexivity]. }
  split; trivial. assert (S0 : forall s, T v64 2 s -> 0 < s) by (intros s Hs; now apply (T_pos v64 v64_ok 2)).
  assert (Pl : forall x, ratios nPol i b x -> 0 <= x).
  { intros x (row & v & im & M & _ & _ & _ & (HM & _) & ->). unfold Rdiv. apply Rmult_le_pos; [apply Rabs_pos|].
    destruct (Req_dec M 0) as [->|]; [rewrite Rinv_0; lra|apply Rlt_le, Rinv_0_lt_compat; lra]. }
  assert (HS : exists s, T v64 2 s /\ B2R c = B2R L * rho * s).
  { destruct (Req_dec rho 0) as [Z|Nz].
    + exists 1. split; [apply (T_weaken v64 v64_ok 0 2); [lia|apply T_1]|]. rewrite Z. destruct At as [At|(row & v & im & I & N & Cv & F & E)]; [lra|].
      destruct (Val row v im I N Cv F) as (s & x & Hs & E2 & Rx). specialize (P1 x Rx). specialize (Pl x Rx). assert (x = 0) by lra. subst x. rewrite E, E2. ring.
    + destruct P2 as [P2|(row & v & im & M & I & N & Cv & HM & Er)]; [lra|].
      assert (Fv : is_finite (part im v) = true).
      { destruct im; cbn [part] in *; [|apply Cv]. destruct Cv as (_ & [Q|Q]); trivial. destruct (snd v); try discriminate. cbn in Er. unfold Rdiv in Er. rewrite Rabs_R0, Rmult_0_l in Er. lra. }
      assert (Rr : ratios nPol i b rho) by (exists row, v, im, M; split; [exact I|]; split; [exact N|]; split; [exact Cv|]; split; [exact HM|exact Er]).
      destruct (y1_part row i v im (R row I) Hp N Cv Fv) as (_ & _ & _ & s & Hs & E). specialize (E M HM). specialize (Up row v im I N Cv Fv).
      pose proof (S0 s Hs) as Ps. assert (PM : 0 <= M) by exact (proj1 HM).
      assert (E' : Rabs (B2R (part im (y1 row i v))) = rho * B2R L * s).
      { rewrite E, !Rabs_mult, (Rabs_pos_eq s), (Rabs_pos_eq (B2R L)) by lra. unfold Rdiv. rewrite Rabs_mult, Rabs_inv, (Rabs_pos_eq M) by trivial. now rewrite Er. }
      rewrite E' in Up. destruct At as [At|(row' & v' & im' & I' & N' & Cv' & F' & Ea)].
      { exfalso. rewrite At in Up. assert (0 < rho * B2R L * s); [|lra]. apply Rmult_lt_0_compat; trivial. apply Rmult_lt_0_compat; lra. }
      destruct (Val row' v' im' I' N' Cv' F') as (s' & x' & Hs' & E2 & Rx'). specialize (P1 x' Rx'). specialize (Pl x' Rx').
      exists (B2R c / (B2R L * rho)). assert (PLr : 0 < B2R L * rho) by (apply Rmult_lt_0_compat; lra). split; [|field; lra].
      pose proof (S0 s' Hs') as Ps'. destruct Hs as (Hs1 & Hs2). destruct Hs' as (Hs1' & Hs2'). split.
      * apply Rmult_le_reg_r with (B2R L * rho); trivial. unfold Rdiv. rewrite Rmult_assoc, Rinv_l by lra. nra.
      * apply Rmult_le_reg_r with (B2R L * rho); trivial. unfold Rdiv. rewrite Rmult_assoc, Rinv_l by lra. rewrite Rmult_1_r, Ea, E2.
        assert (Pi : 0 < / (1 - v64) ^ 2) by (pose proof (pow_v v64 v64_ok 2); apply Rinv_0_lt_compat; lra).
        apply Rle_trans with (rho * B2R L * / (1 - v64) ^ 2); [|lra]. apply Rmult_le_compat; try lra; [apply Rmult_le_pos; lra|].
        apply Rmult_le_compat_r; lra. }
  split; trivial. split; [|split; trivial].
  - destruct (Req_dec rho 0) as [Z|Nz]; [now left|right]. destruct HS as (s & Hs & Es). specialize (S0 s Hs).
    assert (Pc : 0 < B2R c) by (rewrite Es; apply Rmult_lt_0_compat; trivial; apply Rmult_lt_0_compat; lra).
    destruct At as [At|(row & v & im & I & N & Cv & F & Ea)]; [lra|]. split; trivial. rewrite (Rabs_pos_eq (B2R c)) by lra. rewrite Ea.
    destruct (y1_part row i v im (R row I) Hp N Cv F) as (_ & Mg & _ & s' & Hs' & E). apply Mg. intros Z.
    destruct (pol_largest row (i mod nPol) (R row I) Hp) as (_ & HM & _). rewrite (E _ HM), Z in Ea. unfold Rdiv in Ea. rewrite !Rmult_0_l, Rabs_R0 in Ea. lra.
  - destruct At as [At|(row & v & im & I & N & Cv & F & Ea)].
    + rewrite At. apply Rmult_le_pos; [lra|]. pose proof (bpow_ge_0 radix2 (-48)). lra.
    + rewrite Ea. now apply y1_part; try apply R.
Qed.
Lemma div_zero (m l : f64) : is_finite m = true -> is_finite l = true -> B2R m = 0 -> B2R l <> 0 -> is_finite (div64 m l) = true /\ B2R (div64 m l) = 0.
Proof.
  intros Fm Fl Z N. destruct (op_ok_finite (div64 m l) (B2R m / B2R l)) as (A & B); [now apply div_ok| |].
  - rewrite Z. unfold Rdiv. rewrite Rmult_0_l, rne_0, Rabs_R0. apply bpow_gt_0.
  - rewrite Z in B. unfold Rdiv in B. rewrite Rmult_0_l, rne_0 in B. auto.
Qed.

Lemma T_one k : T v64 k 1.
Proof. apply (T_weaken v64 v64_ok 0 k); [lia|apply T_1]. Qed.

(** the stored row factor *)
Lemma row_stored m M : is_finite m = true -> B2R m = M -> 0 <= M -> M = 0 \/ mag (-149) 128 m -> M <= bpow radix2 127 * B2R L ->
  is_finite (to32 (div64 m (to64 L))) = true /\
  Rabs (B2R (to32 (div64 m (to64 L))) - M / B2R L) <= (u32 + bpow radix2 (-47)) * (M / B2R L) + eta.
Proof.
  intros Fm Em PM MM B2. destruct (L_mag e L V) as (ML & EL). pose proof (lv_pos e L V) as PL. assert (FL : is_finite (to64 L : f64) = true) by apply ML.
  set (phi := M / B2R L). assert (Pphi : 0 <= phi) by (unfold phi; apply Rmult_le_pos; [trivial|apply Rlt_le; now apply Rinv_0_lt_compat]).
  assert (Q : is_finite (div64 m (to64 L)) = true /\ exists s, T v64 1 s /\ B2R (div64 m (to64 L)) = phi * s /\ Rabs (B2R (div64 m (to64 L))) <= bpow radix2 127).
  { destruct MM as [Z|MM].
    - destruct (div_zero m (to64 L) Fm FL) as (A & B); [lra|lra|]. split; trivial. exists 1. split; [apply T_one|].
      rewrite B, Rabs_R0. split; [unfold phi; rewrite Z; unfold Rdiv; ring|apply bpow_ge_0].
    - destruct (div_mag (-149) 128 (-149) 128 m (to64 L) MM ML) as (A & s2 & Hs2 & E2); [lia|lia|]. split; [apply A|].
      exists s2. split; trivial. split; [rewrite E2, EL, Em; reflexivity|].
      assert (O : op_ok (div64 m (to64 L)) (B2R m / B2R (to64 L : f64))) by (apply div_ok; trivial; lra).
      destruct (op_ok_bounded _ _ 127 O) as (_ & _ & G); trivial; [|lia]. rewrite Em, EL. fold phi. rewrite Rabs_pos_eq by trivial.
      unfold phi. apply Rmult_le_reg_r with (B2R L); trivial. unfold Rdiv. rewrite Rmult_assoc, Rinv_l by lra. lra. }
  destruct Q as (Fd & s2 & Hs2 & E2 & B127). exact (stored_err _ phi s2 1 Fd Pphi ltac:(lia) Hs2 E2 B127).
Qed.

(** the channel factor: applied ([f]) and stored *)
Lemma channel_scale b i rho kappa : rows_of n b -> (i < n)%nat -> largest (ratios nPol i b) rho -> scale_of rho kappa ->
  let c := rf_C (map (rf_row1 nPol nChan (to64 L) nPol) (map wide b)) i in let f := channel_factor (to64 L) c in
  is_finite f = true /\ (exists s, T v64 3 s /\ B2R f = / kappa * s) /\ mag (-1) 554 f /\
  (rho <> 0 -> Rabs (B2R c) * B2R f <= B2R L * (1 + bpow radix2 (-48))) /\
  is_finite (to32 (div64 one64 f)) = true /\ Rabs (B2R (to32 (div64 one64 f)) - kappa) <= (u32 + bpow radix2 (-47)) * kappa + eta.
Proof.
  intros R Hi HR HK c f. destruct (channel_largest b i rho R Hi HR) as (Fc & (s & Hs & Ec) & Mc & Bc & _). fold c in Fc, Ec, Mc, Bc.
  destruct (L_mag e L V) as (ML & EL). pose proof (lv_pos e L V) as PL. assert (FL : is_finite (to64 L : f64) = true) by apply ML.
  pose proof (T_pos v64 v64_ok _ _ Hs) as Ps. assert (P0 : 0 <= rho) by exact (proj1 HR).
  assert (G : is_finite f = true /\ mag (-1) 554 f /\ (exists s, T v64 3 s /\ B2R f = / kappa * s) /\ (rho <> 0 -> Rabs (B2R c) * B2R f <= B2R L * (1 + bpow radix2 (-48)))).
  { destruct HK as [(Nz & ->)|(Z & ->)].
    - destruct Mc as [Mc|Mc]; [lra|]. assert (Ef : f = div64 (to64 L) c) by (unfold f, channel_factor; now rewrite (is0_false _ _ _ ML), (is0_false _ _ _ Mc)).
      assert (Pc : 0 < B2R c) by (rewrite Ec; apply Rmult_lt_0_compat; trivial; apply Rmult_lt_0_compat; lra).
      assert (O : op_ok f (B2R L / B2R c)) by (rewrite Ef, <- EL; apply div_ok; trivial; lra).
      assert (PLc : 0 < B2R L / B2R c) by now apply Rdiv_lt_0_compat.
      destruct (op_mag f (B2R L / B2R c) (-1) 554 O) as (Mf & s2 & Hs2 & Ef2); [|lia|lia|].
      { rewrite Rabs_pos_eq by lra. split.
        - apply Rmult_le_reg_r with (B2R c); trivial. unfold Rdiv. rewrite Rmult_assoc, Rinv_l by lra. pose proof p48. cbn [bpow] in *. change (Z.pow_pos radix2 1) with 2%Z. nra.
        - apply Rmult_le_reg_r with (B2R c); trivial. unfold Rdiv. rewrite Rmult_assoc, Rinv_l by lra. destruct Mc as (_ & Mc & _). rewrite Rabs_pos_eq in Mc by lra.
          pose proof (B2R_bounds L) as BL. rewrite Rmult_1_r. apply Rle_trans with (bpow radix2 128); [lra|].
          apply Rle_trans with (bpow radix2 554 * bpow radix2 (-426)); [rewrite <- bpow_plus; right; f_equal|]. apply Rmult_le_compat_l; [apply bpow_ge_0|exact Mc]. }
      split; [apply Mf|]. split; trivial. split.
      + exists (/ s * s2). split; [apply (T_mult v64 v64_ok 2 1); [now apply (T_inv v64 v64_ok)|trivial]|]. rewrite Ef2, Ec. field. lra.
      + intros _. rewrite Ef2, (Rabs_pos_eq (B2R c)) by lra. replace (B2R c * (B2R L / B2R c * s2)) with (B2R L * s2) by (field; lra).
        apply Rmult_le_compat_l; [lra|]. pose proof (T8 1 s2 ltac:(lia) Hs2) as Q. apply Rabs_le_inv in Q. lra.
    - assert (Zc : B2R c = 0) by (rewrite Ec, Z; ring). assert (Ef : f = one64) by (unfold f, channel_factor; rewrite (proj2 (is0_val _ Fc) Zc); now rewrite Bool.orb_true_r).
      rewrite Ef. destruct one64_val as (F1 & E1). split; trivial. split; [apply (mag_weaken 0 0); [apply one64_mag|lia|lia]|].
      split; [exists 1; split; [apply T_one|rewrite E1; field]|]. intros Q. now apply Q in Z. }
  destruct G as (Ff & Mf & (s3 & Hs3 & Ef) & Bf). split; trivial. split; [eauto|]. split; trivial. split; trivial.
  assert (Pk : 0 < kappa) by (destruct HK as [(A & ->)|(A & ->)]; lra). pose proof (T_pos v64 v64_ok _ _ Hs3) as Ps3.
  destruct (div_mag 0 0 (-1) 554 one64 f one64_mag Mf) as (Md & s4 & Hs4 & Ed); [lia|lia|].
  apply (stored_err _ kappa (/ s3 * s4) 4); [apply Md|lra|lia| | |].
  - apply (T_mult v64 v64_ok 3 1); [now apply (T_inv v64 v64_ok)|trivial].
  - rewrite Ed, Ef. destruct one64_val as (_ & ->). field. lra.
  - destruct Md as (_ & _ & Md). eapply Rle_trans; [exact Md|]. apply bpow_le. lia.
Qed.

(** the sample after both scalings *)
Lemma rf_scaled b row i v im rho kappa M : rows_of n b -> In row b -> nth_error (visibilities row) i = Some v -> (i < n)%nat -> counted v -> is_finite (part im v) = true ->
  largest (ratios nPol i b) rho -> scale_of rho kappa -> largest (pol_mags nPol (i mod nPol) row) M ->
  let f := channel_factor (to64 L) (rf_C (map (rf_row1 nPol nChan (to64 L) nPol) (map wide b)) i) in let y := mul64 (part im (y1 row i v)) f in
  let phi := M / B2R L * kappa in
  is_finite y = true /\ Rabs (B2R y) <= B2R L * (1 + bpow radix2 (-40)) /\
  (forall t, Rabs (t - B2R y) <= u32 * Rabs (B2R y) + eta + bpow radix2 (-22) * B2R L ->
    Rabs (t * phi - B2R (part im v)) <= (u32 + bpow radix2 (-47)) * Rabs (B2R (part im v)) + eta * phi + bpow radix2 (-22) * B2R L * phi).
Proof.
  intros R I N Hi Cv Fv HR HK HM f y phi. destruct (stride_of nPol nChan i Hi) as (Hp & _ & _). pose proof (lv_pos e L V) as PL.
  destruct (channel_scale b i rho kappa R Hi HR HK) as (Ff & (s3 & Hs3 & Ef) & Mf & Bf & _). fold f in Ff, Ef, Mf, Bf.
  destruct (channel_largest b i rho R Hi HR) as (_ & _ & _ & _ & Up). specialize (Up row v im I N Cv Fv).
  destruct (y1_part row i v im (R row I) Hp N Cv Fv) as (Fy & Mg & By & s & Hs & E). specialize (E M HM).
  assert (P0 : 0 <= rho) by exact (proj1 HR). assert (PM : 0 <= M) by exact (proj1 HM).
  assert (Pk : 0 < kappa) by (destruct HK as [(A & ->)|(A & ->)]; lra).
  assert (Hx : Rabs (B2R (part im v)) <= M) by (apply HM; exists i, v, im; repeat split; trivial; apply Cv).
  assert (Pphi : 0 <= phi) by (unfold phi; apply Rmult_le_pos; [apply Rmult_le_pos; [trivial|apply Rlt_le; now apply Rinv_0_lt_compat]|lra]).
  pose proof p47 as P47. pose proof eta_pos as Pe.
  destruct (Req_dec (B2R (part im v)) 0) as [Z|Nz].
  - assert (Z1 : B2R (part im (y1 row i v)) = 0) by (rewrite E, Z; unfold Rdiv; ring).
    destruct (mul_zero _ f Fy Ff Z1) as (A & B). fold y in A, B. split; trivial. rewrite B, Rabs_R0. split.
    + apply Rmult_le_pos; [lra|]. pose proof (bpow_ge_0 radix2 (-40)). lra.
    + intros t Ht. rewrite Z, Rabs_R0, !Rmult_0_r, Rminus_0_r in *. rewrite Rabs_mult, (Rabs_pos_eq phi) by trivial. apply Rle_trans with ((eta + bpow radix2 (-22) * B2R L) * phi); [|lra].
      apply Rmult_le_compat_r; trivial. lra.
  - specialize (Mg Nz). destruct (mul_mag (-426) 405 (-1) 554 _ f Mg Mf) as (My & s4 & Hs4 & Ey); [lia|lia|]. fold y in My, Ey.
    split; [apply My|].
    assert (Nr : rho <> 0).
    { intros Zr. assert (Q : Rabs (B2R (part im v)) / M <= rho) by (apply HR; exists row, v, im, M; split; [exact I|]; split; [exact N|]; split; [exact Cv|]; split; [exact HM|reflexivity]).
      assert (PM' : 0 < M) by (apply Rlt_le_trans with (Rabs (B2R (part im v))); trivial; now apply Rabs_pos_lt).
      assert (0 < Rabs (B2R (part im v)) / M) by (apply Rdiv_lt_0_compat; trivial; now apply Rabs_pos_lt). lra. }
    specialize (Bf Nr). pose proof (T_pos v64 v64_ok _ _ Hs3) as Ps3. assert (Pf : 0 < B2R f) by (rewrite Ef; apply Rmult_lt_0_compat; trivial; now apply Rinv_0_lt_compat).
    assert (PM' : 0 < M) by (apply Rlt_le_trans with (Rabs (B2R (part im v))); trivial; now apply Rabs_pos_lt).
    split.
    + rewrite Ey. pose proof (T8 1 s4 ltac:(lia) Hs4) as Q. apply Rabs_le_inv in Q. pose proof p48 as P48. rewrite !Rabs_mult, (Rabs_pos_eq (B2R f)), (Rabs_pos_eq s4) by lra.
      set (c := rf_C (map (rf_row1 nPol nChan (to64 L) nPol) (map wide b)) i) in *.
      assert (A1 : Rabs (B2R (part im (y1 row i v))) * B2R f <= B2R L * (1 + bpow radix2 (-48))).
      { eapply Rle_trans; [|exact Bf]. apply Rmult_le_compat_r; [lra|]. eapply Rle_trans; [exact Up|]. apply Rle_abs. }
      apply Rle_trans with (B2R L * (1 + bpow radix2 (-48)) * (1 + bpow radix2 (-48))).
      * apply Rmult_le_compat; try lra. apply Rmult_le_pos; [apply Rabs_pos|lra].
      * rewrite Rmult_assoc. apply Rmult_le_compat_l; [lra|].
        assert (E40 : bpow radix2 (-40) = 256 * bpow radix2 (-48)) by (change (-40)%Z with (8 + -48)%Z; rewrite bpow_plus; reflexivity). rewrite E40. nra.
    + intros t Ht. apply (scaled_err _ (B2R y) t phi (s * s3 * s4) 6 (bpow radix2 (-22) * B2R L)); trivial; [|lia| |].
      * unfold phi. apply Rmult_lt_0_compat; trivial. now apply Rdiv_lt_0_compat.
      * apply (T_mult v64 v64_ok 5 1); trivial. now apply (T_mult v64 v64_ok 2 3).
      * rewrite Ey, E, Ef. unfold phi. field. lra.
Qed.

(** product of the two stored factors *)
Lemma product_err (m1 m2 : f32) p1 p2 c : is_finite m1 = true -> is_finite m2 = true -> 0 <= p1 -> 0 <= p2 <= 1 -> 0 <= c <= / 16777000 -> bpow radix2 (-48) <= c ->
  Rabs (B2R m1 - p1) <= c * p1 + eta -> Rabs (B2R m2 - p2) <= c * p2 + eta ->
  nice (mul64 (to64 m2) (to64 m1)) /\ Rabs (B2R (mul64 (to64 m2) (to64 m1)) - p1 * p2) <= 4 * c * (p1 * p2) + 2 * eta * (1 + p1).
Proof.
  intros F1 F2 P1 P2 Pc P48 H1 H2. destruct (to64_val m1 F1) as (F1' & E1). destruct (to64_val m2 F2) as (F2' & E2).
  assert (Q : nice (mul64 (to64 m2) (to64 m1)) /\ Rabs (B2R (mul64 (to64 m2) (to64 m1)) - B2R m1 * B2R m2) <= c * Rabs (B2R m1 * B2R m2)).
  { destruct (Req_dec (B2R m1) 0) as [Z|N1].
    - destruct (mul_zero_r (to64 m2) (to64 m1) F2' F1') as (A & B); [lra|]. split; [split; [trivial|now left]|]. rewrite B, Z, Rmult_0_l, Rminus_0_r, Rabs_R0. lra.
    - destruct (Req_dec (B2R m2) 0) as [Z|N2].
      + destruct (mul_zero (to64 m2) (to64 m1) F2' F1') as (A & B); [lra|]. split; [split; [trivial|now left]|]. rewrite B, Z, Rmult_0_r, Rminus_0_r, Rabs_R0. lra.
      + destruct (mul_mag (-149) 128 (-149) 128 (to64 m2) (to64 m1) (f32_mag m2 F2 N2) (f32_mag m1 F1 N1)) as (A & s & Hs & E); [lia|lia|].
        split; [split; [apply A|right; apply (mag_weaken _ _ _ _ _ A); lia]|]. rewrite E, E1, E2.
        replace (B2R m2 * B2R m1 * s - B2R m1 * B2R m2) with ((s - 1) * (B2R m1 * B2R m2)) by ring. rewrite Rabs_mult. apply Rmult_le_compat_r; [apply Rabs_pos|].
        eapply Rle_trans; [apply (T8 1); [lia|trivial]|trivial]. }
  destruct Q as (Nq & Hq). split; trivial. pose proof eta_pos as Pe. pose proof eta_small as Se.
  set (d1 := B2R m1 - p1) in *. set (d2 := B2R m2 - p2) in *.
  assert (A : Rabs (B2R m1 * B2R m2 - p1 * p2) <= p1 * (c * p2 + eta) + p2 * (c * p1 + eta) + (c * p1 + eta) * (c * p2 + eta)).
  { replace (B2R m1 * B2R m2 - p1 * p2) with (p1 * d2 + (p2 * d1 + d1 * d2)) by (unfold d1, d2; ring).
    eapply Rle_trans; [apply Rabs_triang|]. pose proof (Rabs_triang (p2 * d1) (d1 * d2)) as Tr. rewrite !Rabs_mult in *. rewrite (Rabs_pos_eq p1) in * by lra. rewrite (Rabs_pos_eq p2) in * by lra.
    assert (p1 * Rabs d2 <= p1 * (c * p2 + eta)) by (apply Rmult_le_compat_l; trivial).
    assert (p2 * Rabs d1 <= p2 * (c * p1 + eta)) by (apply Rmult_le_compat_l; lra).
    assert (Rabs d1 * Rabs d2 <= (c * p1 + eta) * (c * p2 + eta)) by (apply Rmult_le_compat; trivial; apply Rabs_pos). lra. }
  set (g := p1 * (c * p2 + eta) + p2 * (c * p1 + eta) + (c * p1 + eta) * (c * p2 + eta)) in *.
  assert (B : Rabs (B2R m1 * B2R m2) <= p1 * p2 + g).
  { replace (B2R m1 * B2R m2) with ((B2R m1 * B2R m2 - p1 * p2) + p1 * p2) by ring. eapply Rle_trans; [apply Rabs_triang|].
    rewrite (Rabs_pos_eq (p1 * p2)) by (apply Rmult_le_pos; lra). lra. }
  replace (B2R (mul64 (to64 m2) (to64 m1)) - p1 * p2) with ((B2R (mul64 (to64 m2) (to64 m1)) - B2R m1 * B2R m2) + (B2R m1 * B2R m2 - p1 * p2)) by ring.
  eapply Rle_trans; [apply Rabs_triang|].
  assert (Eg : g = 2 * (c * (p1 * p2)) + eta * p1 + eta * p2 + c * (c * (p1 * p2)) + c * (eta * p1) + c * (eta * p2) + eta * eta) by (unfold g; ring).
  assert (X0 : 0 <= p1 * p2) by (apply Rmult_le_pos; lra). assert (X1 : 0 <= c * (p1 * p2)) by (apply Rmult_le_pos; lra).
  assert (X2 : 0 <= eta * p1) by (apply Rmult_le_pos; lra). assert (X3 : 0 <= eta * p2 <= eta) by (split; [apply Rmult_le_pos; lra|nra]).
  assert (X4 : 0 <= eta * eta <= / 4194304 * eta) by (split; [nra|apply Rmult_le_compat_r; lra]).
  assert (S1 : c * (c * (p1 * p2)) <= / 16777000 * (c * (p1 * p2))) by (apply Rmult_le_compat_r; lra).
  assert (S2 : c * (eta * p1) <= / 16777000 * (eta * p1)) by (apply Rmult_le_compat_r; lra).
  assert (S3 : c * (eta * p2) <= / 16777000 * (eta * p2)) by (apply Rmult_le_compat_r; lra).
  assert (Hg : g <= 2 * (c * (p1 * p2)) + / 16777000 * (c * (p1 * p2)) + (1 + / 16777000) * (eta * p1) + (1 + / 16777000) * eta + / 4194304 * eta) by lra.
  assert (Hcg : c * (p1 * p2 + g) <= c * (p1 * p2) + / 16777000 * g).
  { rewrite Rmult_plus_distr_l. apply Rplus_le_compat_l. apply Rmult_le_compat_r; [|lra].
    rewrite Eg. assert (0 <= c * (c * (p1 * p2))) by (apply Rmult_le_pos; lra). assert (0 <= c * (eta * p1)) by (apply Rmult_le_pos; lra).
    assert (0 <= c * (eta * p2)) by (apply Rmult_le_pos; lra). lra. }
  assert (Hc2 : c * Rabs (B2R m1 * B2R m2) <= c * (p1 * p2 + g)) by (apply Rmult_le_compat_l; lra).
  lra.
Qed.

Lemma rf_bound g b meta sym r row : rows_of n b ->
  (rf_MetaDataCount (length b) nPol nChan 0 <= length meta)%nat -> (SymbolCount (length b) nPol nChan <= length sym)%nat -> nth_error b r = Some row ->
  exists out, rf_roundtrip e nPol nChan (Some g) b meta sym r = Ok out /\ length out = n /\
    forall i v im M rho kappa, nth_error (visibilities row) i = Some v -> counted v -> is_finite (part im v) = true ->
    largest (pol_mags nPol (i mod nPol) row) M -> largest (ratios nPol i b) rho -> scale_of rho kappa ->
    M <= bpow radix2 124 -> M <= bpow radix2 127 * B2R L ->
    let phi := M / B2R L * kappa in let tol := bpow radix2 (-20) * (M * kappa) + bpow radix2 (-147) * (1 + B2R L + M + phi) in
    exists w j lo hi, nth_error out i = Some w /\ is_finite (part im w) = true /\
      nth_error (dec e) j = Some lo /\ nth_error (dec e) (S j) = Some hi /\
      B2R lo * phi - tol <= B2R (part im v) <= B2R hi * phi + tol /\
      Rabs (B2R (part im w) - B2R (part im v)) <= (B2R hi - B2R lo) * phi + tol.
Proof.
  intros R Hm Hs N.
  destruct (rf_roundtrip_form e (lv_wf e L V) (Some g) nPol nChan b meta sym L r row R (lv_max e L V) Hm Hs N) as (out & E & Lo & H).
  exists out. split; trivial. split; trivial. intros i v im M rho kappa Nv Cv Fv HM HR HK B1 B2 phi tol. destruct (H i v im Nv) as (s & q & w & Es & Hs' & D & Nw & Pw).
  pose proof (nth_error_In _ _ N) as I. pose proof (nth_lt _ _ _ Nv) as Hi. rewrite (R row I) in Hi. destruct (stride_of nPol nChan i Hi) as (Hp & _ & _).
  pose proof (lv_pos e L V) as PL. destruct (L_mag e L V) as (ML & EL). pose proof eta_pos as Pe. pose proof p47 as P47. pose proof p48 as P48.
  assert (P0 : 0 <= rho) by exact (proj1 HR). assert (PM : 0 <= M) by exact (proj1 HM).
  assert (Pk : 0 < kappa <= 1).
  { destruct HK as [(A & ->)|(A & ->)]; [|lra]. split; [lra|]. destruct HR as (_ & _ & [Z|(row' & v' & im' & M' & I' & N' & C' & HM' & ->)]); [lra|].
    assert (Q : Rabs (B2R (part im' v')) <= M') by (apply HM'; exists i, v', im'; repeat split; trivial; apply C').
    pose proof (Rabs_pos (B2R (part im' v'))). assert (0 < M') by (destruct (Req_dec M' 0) as [Z|]; [unfold Rdiv in A; rewrite Z, Rinv_0, Rmult_0_r in A; lra|lra]).
    apply Rmult_le_reg_r with M'; trivial. unfold Rdiv. rewrite Rmult_assoc, Rinv_l by lra. lra. }
  assert (Hx : Rabs (B2R (part im v)) <= M * kappa).
  { assert (Hx : Rabs (B2R (part im v)) <= M) by (apply HM; exists i, v, im; repeat split; trivial; apply Cv).
    destruct HK as [(A & ->)|(A & ->)]; [|lra]. destruct (Req_dec M 0) as [Z|Nz]; [rewrite Z in *; lra|].
    assert (Q : Rabs (B2R (part im v)) / M <= rho) by (apply HR; exists row, v, im, M; split; [exact I|]; split; [exact Nv|]; split; [exact Cv|]; split; [exact HM|reflexivity]).
    apply Rmult_le_compat_r with (r := M) in Q; [|trivial]. unfold Rdiv in Q. rewrite Rmult_assoc, Rinv_l in Q by trivial. lra. }
  set (p1 := M / B2R L) in *. assert (Pp1 : 0 <= p1) by (unfold p1; apply Rmult_le_pos; [trivial|apply Rlt_le; now apply Rinv_0_lt_compat]).
  assert (Pphi : 0 <= phi) by (unfold phi; apply Rmult_le_pos; lra). assert (ELp : B2R L * p1 = M) by (unfold p1; field; lra).
  assert (ELphi : B2R L * phi = M * kappa) by (unfold phi; rewrite <- Rmult_assoc, ELp; reflexivity).
  destruct (rf_scaled b row i v im rho kappa M R I Nv Hi Cv Fv HR HK HM) as (Fy & By & Hy).
  assert (Ey : part im (y1 row i v) = mul64 (to64 (part im v)) (row_factor (to64 L) (rf_M nPol nChan (wide row) (i mod nPol)))) by (unfold y1; now rewrite part_cmul, part_widen).
  rewrite <- Ey in Es.
  destruct (channel_scale b i rho kappa R Hi HR HK) as (_ & _ & _ & _ & F2 & H2).
  destruct (pol_largest row (i mod nPol) (R row I) Hp) as (Fm & _ & MM). pose proof (pol_largest_eq row (i mod nPol) M (R row I) Hp HM) as Em. rewrite Em in MM.
  destruct (row_stored _ M Fm Em PM MM B2) as (F1 & H1). fold p1 in H1.
  unfold rf_meta in Pw. rewrite (is0_false _ _ _ ML) in Pw.
  set (c := u32 + bpow radix2 (-47)) in *. assert (Hc : 0 <= c <= / 16777000) by (unfold c; rewrite u32_val; lra).
  assert (Hc48 : bpow radix2 (-48) <= c) by (unfold c; rewrite u32_val; lra).
  destruct (product_err _ _ p1 kappa c F1 F2 Pp1 ltac:(lra) Hc Hc48 H1 H2) as (NF & HF). fold phi in HF.
  assert (BL : eta * B2R L <= / 4194304).
  { apply Rle_trans with (eta * bpow radix2 128); [|apply eta_big]. apply Rmult_le_compat_l; [lra|]. pose proof (B2R_bounds L). lra. }
  assert (E20 : bpow radix2 (-20) = / 1048576) by (cbn; lra). assert (E22 : bpow radix2 (-22) = / 4194304) by (cbn; lra).
  assert (Tol : bpow radix2 (-147) = 8 * eta) by (unfold eta; change (-147)%Z with (3 + -150)%Z; rewrite bpow_plus; reflexivity).
  assert (B126 : bpow radix2 126 = 4 * bpow radix2 124) by (change 126%Z with (2 + 124)%Z; rewrite bpow_plus; reflexivity).
  assert (B124 : 1 <= bpow radix2 124) by (change 1 with (bpow radix2 0); apply bpow_le; lia).
  set (x := B2R (part im v)) in *. set (K := M * kappa) in *. assert (PK : 0 <= K <= M) by (unfold K; split; [apply Rmult_le_pos; lra|nra]).
  assert (PcK : 0 <= c * K <= / 16777000 * K) by (split; [apply Rmult_le_pos; lra|apply Rmult_le_compat_r; lra]).
  assert (Pep : 0 <= eta * phi) by (apply Rmult_le_pos; lra). assert (PeL : 0 <= eta * B2R L) by (apply Rmult_le_pos; lra).
  assert (PeM : 0 <= eta * M <= / 4194304 * M) by (split; [apply Rmult_le_pos; lra|apply Rmult_le_compat_r; [lra|apply eta_small]]).
  assert (Pcx : c * Rabs x <= c * K) by (apply Rmult_le_compat_l; lra).
  assert (EL2 : B2R L * (4 * c * phi + 2 * eta * (1 + p1)) = 4 * (c * K) + 2 * (eta * B2R L) + 2 * (eta * M)) by (rewrite <- ELphi, <- ELp; ring).
  assert (EL3 : B2R L * (phi + (4 * c * phi + 2 * eta * (1 + p1))) = K + 4 * (c * K) + 2 * (eta * B2R L) + 2 * (eta * M)) by (rewrite Rmult_plus_distr_l, EL2, ELphi; ring).
  destruct (component_err e L g (r * (nPol * nChan * 2) + i * 2 + b2n im)%nat _ x phi _ _ _ s q V Fy By Pphi Hy NF HF) as (j & lo & hi & Nlo & Nhi & Br & Fd & Ed); trivial.
  { rewrite EL3, E22. lra. }
  change (M / B2R L * kappa) with phi in Br, Ed. fold c in Ed. rewrite E22 in Br, Ed. rewrite (Rmult_assoc _ (B2R L) phi), ELphi in Br, Ed. rewrite EL2, EL3 in Ed. rewrite <- Pw in Fd, Ed.
  exists w, j, lo, hi. unfold tol. rewrite Tol, E20. repeat split; trivial; try lra.
  eapply Rle_trans; [exact Ed|]. assert (Y : 0 <= K + 4 * (c * K) + 2 * (eta * B2R L) + 2 * (eta * M)) by lra.
  assert (c * (K + 4 * (c * K) + 2 * (eta * B2R L) + 2 * (eta * M)) <= c * K + / 16777000 * (4 * (c * K) + 2 * (eta * B2R L) + 2 * (eta * M))).
  { rewrite !Rmult_plus_distr_l. assert (c * (4 * (c * K)) <= / 16777000 * (4 * (c * K))) by (apply Rmult_le_compat_r; lra).
    assert (c * (2 * (eta * B2R L)) <= / 16777000 * (2 * (eta * B2R L))) by (apply Rmult_le_compat_r; lra).
    assert (c * (2 * (eta * M)) <= / 16777000 * (2 * (eta * M))) by (apply Rmult_le_compat_r; lra). lra. }
  lra.
Qed.
End RFBound.
