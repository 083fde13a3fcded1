(** More lemmas about weights: re-encoding, undefined inputs, WeightEncoder. *)
From Coq Require Import Reals Lra Psatz.
From Flocq Require Import Core.
From Verif Require Import Base BaseLemmas Floats FloatLemmas Weights WeightSpec WeightProofs WeightBlockProofs.
Local Open Scope R_scope.

Lemma away_near r z : Rabs (r - IZR z) < / 2 -> away r = z.
Proof. apply Znearest_imp. Qed.

Section Again.
Variable m : f32.
Hypothesis Fm : is_finite m = true.
Hypothesis Pm : 0 < B2R m.
Hypothesis Nm : bpow radix2 (-126) <= B2R m.
Variable q : Z.
Hypothesis Hq : (2 <= q <= 65536)%Z.

Lemma requantize s : (0 <= s <= q - 1)%Z -> qsym m q (dequantize q m (Z.to_N s)) = s.
Proof.
  intros Hs. destruct (dequant_val m Fm Pm q Hq s Hs) as (Fv & _ & Rv & Ev).
  set (v := dequantize q m (Z.to_N s)) in *.
  assert (HN : 1 <= IZR (q - 1) <= 65535) by (split; apply IZR_le; lia).
  assert (Hz : 0 <= IZR s <= IZR (q - 1)) by (split; apply IZR_le; lia).
  destruct (quant_arg m Fm Pm q Hq v Fv Rv) as (_ & Ex & _ & _).
  pose proof (t_range m Pm q Hq v Rv) as T.
  set (t := B2R v * IZR (q - 1) / B2R m) in *. set (u := IZR s * B2R m / IZR (q - 1)) in *.
  assert (Et : Rabs (t - IZR s) <= / 8388608 * IZR s + / 256).
  { replace (t - IZR s) with ((B2R v - u) * (IZR (q - 1) / B2R m)) by (unfold t, u; field; lra).
    assert (Q : 0 < IZR (q - 1) / B2R m) by (apply Rdiv_lt_0_compat; lra).
    rewrite Rabs_mult, (Rabs_pos_eq (_ / _)) by lra.
    apply Rle_trans with ((bpow radix2 (-23) * u + bpow radix2 (-150)) * (IZR (q - 1) / B2R m)); [apply Rmult_le_compat_r; lra|].
    rewrite Rmult_plus_distr_r. change (bpow radix2 (-23)) with (/ 8388608).
    replace (/ 8388608 * u * (IZR (q - 1) / B2R m)) with (/ 8388608 * IZR s) by (unfold u; field; lra).
    apply Rplus_le_compat_l.
    assert (I : / B2R m <= bpow radix2 126).
    { replace (bpow radix2 126) with (/ bpow radix2 (-126)) by (rewrite <- bpow_opp; reflexivity). apply Rinv_le; trivial. apply bpow_gt_0. }
    unfold Rdiv. apply Rle_trans with (bpow radix2 (-150) * (65536 * bpow radix2 126)).
    - apply Rmult_le_compat_l; [apply bpow_ge_0|]. apply Rmult_le_compat; try lra. apply Rlt_le, Rinv_0_lt_compat; lra.
    - change 65536 with (bpow radix2 16). rewrite <- !bpow_plus. change (/ 256) with (bpow radix2 (-8)). apply bpow_le. lia. }
  apply away_near. change (bpow radix2 (-23)) with (/ 8388608) in Ex.
  assert (bpow radix2 (-150) <= / 1000) by (apply Rle_trans with (bpow radix2 (-10)); [apply bpow_le; lia|change (bpow radix2 (-10)) with (/ 1024); lra]).
  apply Rabs_le_inv in Ex, Et. apply Rabs_lt. lra.
Qed.
End Again.

Lemma nth_error_ext_list {A} (l l' : list A) : (forall i, nth_error l i = nth_error l' i) -> l = l'.
Proof.
  revert l'. induction l as [|a l IH]; intros [|b l'] H; trivial; try (specialize (H 0%nat); discriminate).
  f_equal; [specialize (H 0%nat); cbn in H; congruence|]. apply IH. intros i. apply (H (S i)).
Qed.

Lemma B2R_pos_inj (x y : f32) : is_finite x = true -> is_finite y = true -> 0 < B2R x -> B2R x = B2R y -> x = y.
Proof.
  intros Fx Fy P E. apply B2R_inj; trivial; [destruct x|destruct y]; trivial; cbn in *; try lra; discriminate.
Qed.

Lemma weights_again nPol nChan q block m ss block' : regular nPol nChan block -> Forall (Forall nonneg) block ->
  (2 <= q <= 65536)%Z -> EncodeWeights nPol nChan q block = Ok (m, ss) -> bpow radix2 (-126) <= B2R m ->
  mapM (DecodeWeights nPol nChan q m ss) (seq 0 (length block)) = Ok block' ->
  EncodeWeights nPol nChan q block' = Ok (m, ss).
Proof.
  intros Hr Hn Hq E Hm D.
  destruct (encode_ok nPol nChan q block Hr Hn Hq) as (m0 & ws & ss0 & E0 & Ew & Em & Fw & Fm & Pm & Lm & Es & Ls & G).
  rewrite E in E0. injection E0 as <- <-.
  apply mapM_inv in D. assert (Lb : length block' = length block) by (rewrite (Forall2_len _ _ _ D); apply seq_length).
  assert (Hp : (0 < nPol)%nat) by (destruct Hr; lia).
  pose (vs := map (fun w => dequantize q m (Z.to_N (qsym m q w))) ws).
  assert (Vs : forall w, In w ws -> nonneg (dequantize q m (Z.to_N (qsym m q w))) /\ B2R (dequantize q m (Z.to_N (qsym m q w))) <= B2R m /\ (0 <= qsym m q w <= q - 1)%Z).
  { intros w Iw. rewrite Forall_forall in Fw. destruct (Fw w Iw) as (F1 & P1).
    destruct (quantize_ok m Fm Pm q Hq w F1 (conj P1 (Lm w Iw))) as (_ & Q).
    destruct (dequant_val m Fm Pm q Hq _ Q) as (Fv & _ & Rv & _). repeat split; trivial; try lra; lia. }
  (* the rows of the decoded block *)
  assert (Rows : forall r rw', nth_error block' r = Some rw' -> length rw' = (nChan * nPol)%nat /\
     forall ch p, (ch < nChan)%nat -> (p < nPol)%nat -> exists v, nth_error vs (r * nChan + ch) = Some v /\ nth_error rw' (ch * nPol + p) = Some v).
  { intros r rw' Nr. destruct (Forall2_nth_r _ _ _ D r rw' Nr) as (r0 & Nr0 & Dr).
    assert (Lr : (r < length block)%nat) by (rewrite <- Lb; apply nth_error_Some; congruence).
    rewrite nth_error_seq in Nr0 by trivial. injection Nr0 as <-. cbn in Dr.
    destruct (nth_error block r) as [rw|] eqn:Nb; [|apply nth_error_None in Nb; lia].
    destruct (decode_ok nPol nChan q m ss r) as (out & Do & Lo & Go).
    { intros ch Hc. destruct (G r rw ch Nb Hc) as (w & Nw & _). rewrite Es. exists (Z.to_N (qsym m q w)).
      now apply map_nth_error with (f := fun w => Z.to_N (qsym m q w)). }
    rewrite Dr in Do. injection Do as <-. split; trivial. intros ch p Hc Hp'.
    destruct (G r rw ch Nb Hc) as (w & Nw & _). exists (dequantize q m (Z.to_N (qsym m q w))).
    split; [now apply map_nth_error with (f := fun w => dequantize q m (Z.to_N (qsym m q w)))|].
    apply Go; trivial. rewrite Es. now apply map_nth_error with (f := fun w => Z.to_N (qsym m q w)). }
  assert (Hr' : regular nPol nChan block').
  { destruct Hr as (H1 & _). split; trivial. apply Forall_forall. intros rw I. apply In_nth_error in I. destruct I as (r & Nr). now apply (Rows r). }
  assert (Vn : forall v, In v vs -> nonneg v /\ B2R v <= B2R m).
  { intros v I. apply in_map_iff in I. destruct I as (w & <- & Iw). destruct (Vs w Iw) as (? & ? & _). auto. }
  assert (Hn' : Forall (Forall nonneg) block').
  { apply Forall_forall. intros rw I. apply In_nth_error in I. destruct I as (r & Nr). destruct (Rows r rw Nr) as (Ll & Gg).
    apply Forall_forall. intros x Ix. apply In_nth_error in Ix. destruct Ix as (i & Ni).
    assert (Li : (i < nChan * nPol)%nat) by (rewrite <- Ll; apply nth_error_Some; congruence).
    assert (Pn : nPol <> 0%nat) by lia.
    destruct (Gg (i / nPol)%nat (i mod nPol)%nat) as (v & Nv & Nx); [apply Nat.div_lt_upper_bound; lia|now apply Nat.mod_upper_bound|].
    replace (i / nPol * nPol + i mod nPol)%nat with i in Nx by (rewrite (Nat.div_mod i nPol Pn) at 1; lia).
    assert (x = v) as -> by congruence. apply Vn. eapply nth_error_In; eassumption. }
  destruct (encode_ok nPol nChan q block' Hr' Hn' Hq) as (m' & ws' & ss' & E' & Ew' & Em' & Fw' & Fm' & Pm' & Lm' & Es' & Ls' & G').
  assert (Eq : ws' = vs).
  { apply nth_error_ext_list. intros i. destruct (lt_dec i (length block * nChan)) as [Li|Li].
    - assert (C0 : nChan <> 0%nat) by (intros ->; lia).
      assert (Er : (i / nChan < length block)%nat) by (apply Nat.div_lt_upper_bound; lia).
      destruct (nth_error block' (i / nChan)) as [rw|] eqn:Nr; [|apply nth_error_None in Nr; lia].
      assert (Hc : (i mod nChan < nChan)%nat) by (apply Nat.mod_upper_bound; trivial).
      destruct (G' _ rw _ Nr Hc) as (w & Nw & (Iw & Sw)).
      assert (Ei : (i / nChan * nChan + i mod nChan = i)%nat) by (rewrite (Nat.div_mod i nChan C0) at 3; lia).
      rewrite Ei in Nw. rewrite Nw. apply In_nth_error in Iw. destruct Iw as (p & Np).
      assert (Lp : (p < nPol)%nat).
      { assert (L : (p < length (pols nPol rw (i mod nChan)))%nat) by (apply nth_error_Some; congruence).
        unfold pols in L. rewrite firstn_length in L. lia. }
      rewrite pols_nth in Np by trivial. destruct (Rows _ rw Nr) as (_ & Gg). destruct (Gg _ p Hc Lp) as (v & Nv & Nx).
      rewrite Ei in Nv. congruence.
    - rewrite (proj2 (nth_error_None ws' i)) by lia. symmetry. apply nth_error_None. unfold vs. rewrite map_length. lia. }
  assert (Emm : m' = m).
  { apply B2R_pos_inj; trivial.
    destruct (max_value_ok ws' Fw') as (_ & _ & _ & Ho'). rewrite <- Em' in Ho'.
    destruct (max_value_ok ws Fw) as (_ & _ & _ & Ho). rewrite <- Em in Ho.
    destruct Ho as [Ho|(O1 & Oz)].
    - apply Rle_antisym.
      + destruct Ho' as [I|(O1 & Oz)]; [rewrite Eq in I; apply Vn; trivial|].
        exfalso. specialize (Oz (dequantize q m (Z.to_N (qsym m q m)))). rewrite (qsym_max m Fm Pm q Hq m Fm eq_refl) in Oz.
        rewrite dequant_max in Oz by trivial. rewrite Oz in Pm; [lra|]. rewrite Eq. unfold vs.
        rewrite <- (qsym_max m Fm Pm q Hq m Fm eq_refl). now apply in_map with (f := fun w => dequantize q m (Z.to_N (qsym m q w))).
      + rewrite <- (dequant_max m Fm Pm q Hq) at 1. apply Lm'. rewrite Eq. unfold vs.
        rewrite <- (qsym_max m Fm Pm q Hq m Fm eq_refl). now apply in_map with (f := fun w => dequantize q m (Z.to_N (qsym m q w))).
    - assert (Vz : forall v, In v vs -> B2R v = 0).
      { intros v I. apply in_map_iff in I. destruct I as (w & <- & Iw). rewrite Forall_forall in Fw. destruct (Fw w Iw) as (F1 & _).
        rewrite (qsym_zero m Fm Pm q Hq w F1 (Oz w Iw)). now apply dequant_zero. }
      destruct Ho' as [I|(O1' & _)]; [rewrite Eq in I; rewrite (Vz _ I) in Pm'; lra|congruence]. }
  rewrite E', Es', Emm, Eq, Es. f_equal. f_equal. unfold vs. rewrite map_map. apply map_ext_in.
  intros w Iw. destruct (Vs w Iw) as (_ & _ & Q). now rewrite requantize.
Qed.

(** ** Undefined behaviour *)

Lemma to_unsigned_not_throw x : to_unsigned x <> Throw.
Proof. unfold to_unsigned. destruct (is_finite x); [|discriminate]. now destruct (_ && _)%bool. Qed.

Lemma roundf_finite x : is_finite (roundf x) = is_finite x.
Proof. apply (Bnearbyint_correct 24 128 _ mode_NA x). Qed.

Lemma conv_not_finite {p e p' e'} {Hp : Prec_gt_0 p'} {He : Prec_lt_emax p' e'} (x : binary_float p e) :
  is_finite x = false -> is_finite (conv x : binary_float p' e') = false.
Proof. now destruct x. Qed.

Lemma mul64_not_finite (x y : f64) : is_finite x = false -> is_finite (mul64 x y) = false.
Proof. destruct x; try discriminate; now destruct y. Qed.

Lemma quantize_not_finite q m w : is_finite w = false -> quantize q m w = UB.
Proof.
  intros H. unfold quantize, to_unsigned. rewrite roundf_finite.
  assert (F : is_finite (to32 (mul64 (to64 w) (enc_scale q m))) = false).
  { apply conv_not_finite, mul64_not_finite. now apply (conv_not_finite (p':=53) (e':=1024)). }
  now rewrite F.
Qed.

Lemma encode_nonfinite_ub nPol nChan q block ws w : channel_weights nPol nChan block = Ok ws -> In w ws ->
  is_finite w = false -> EncodeWeights nPol nChan q block = UB.
Proof.
  intros E I F. unfold EncodeWeights. rewrite E. cbn [bind].
  rewrite (mapM_UB (quantize q (max_value ws)) ws w); trivial; [now apply quantize_not_finite|].
  intros x _. apply to_unsigned_not_throw.
Qed.

Lemma quantize_negative q m w : is_finite m = true -> 0 < B2R m -> (2 <= q <= 65536)%Z -> is_finite w = true ->
  B2R w * IZR (q - 1) <= - B2R m -> quantize q m w = UB.
Proof.
  intros Fm Pm Hq Fw Hw. unfold quantize, to_unsigned. rewrite roundf_finite.
  destruct (is_finite (to32 (mul64 (to64 w) (enc_scale q m)))) eqn:Fx; trivial.
  destruct (roundf_trunc _ Fx) as (_ & ->).
  assert (HN : 1 <= IZR (q - 1) <= 65535) by (split; apply IZR_le; lia).
  assert (X : B2R (to32 (mul64 (to64 w) (enc_scale q m))) <= -1).
  { destruct (enc_scale_ok m Fm Pm q Hq) as (Fs & Es). destruct (w64 q w Fw) as (F1 & E1).
    set (s := B2R (enc_scale q m)) in *. apply Rabs_le_inv in Es.
    assert (M : op_ok (mul64 (to64 w) (enc_scale q m)) (B2R w * s)) by (rewrite <- E1; now apply mult_ok).
    assert (Q : 0 < IZR (q - 1) / B2R m) by (apply Rdiv_lt_0_compat; lra).
    assert (Nw : B2R w < 0) by nra.
    assert (T : B2R w * (IZR (q - 1) / B2R m) <= -1).
    { apply Rmult_le_reg_r with (B2R m); trivial.
      replace (B2R w * (IZR (q - 1) / B2R m) * B2R m) with (B2R w * IZR (q - 1)) by (field; lra). lra. }
    set (c := 1 - bpow radix2 (-41)).
    assert (Cs : B2R w * s <= - c).
    { assert (S : s >= (IZR (q - 1) / B2R m) * c).
      { unfold c. assert (bpow radix2 (-52) <= bpow radix2 (-41)) by (apply bpow_le; lia).
        assert (bpow radix2 (-52) * (IZR (q - 1) / B2R m) <= bpow radix2 (-41) * (IZR (q - 1) / B2R m)) by (apply Rmult_le_compat_r; lra). lra. }
      assert (C0 : 0 < c) by (unfold c; change (bpow radix2 (-41)) with (/ 2199023255552); lra).
      nra. }
    assert (Cf : rn64 c = c).
    { unfold c. replace (1 - bpow radix2 (-41)) with (IZR (2 ^ 41 - 1) * bpow radix2 (-41)).
      - apply rne_F2R; lia.
      - change (IZR (2 ^ 41 - 1)) with 2199023255551. change (bpow radix2 (-41)) with (/ 2199023255552). lra. }
    assert (F2 : is_finite (mul64 (to64 w) (enc_scale q m)) = true).
    { destruct (is_finite (mul64 (to64 w) (enc_scale q m))) eqn:F2; trivial.
      apply (conv_not_finite (p':=24) (e':=128)) in F2. unfold to32 in Fx. congruence. }
    destruct M as (_ & M). rewrite K_finite in M by trivial.
    assert (P : B2R (mul64 (to64 w) (enc_scale q m)) <= - c).
    { rewrite M. apply Rle_trans with (RN (p:=53) (e:=1024) (- c)); [now apply RN_le|].
      rewrite RN_opp, RN_inner, Cf; [lra|]. rewrite Cf. unfold c.
      rewrite Rabs_pos_eq by (change (bpow radix2 (-41)) with (/ 2199023255552); lra).
      apply Rlt_le_trans with (bpow radix2 1); [pose proof (bpow_gt_0 radix2 (-41)); change (bpow radix2 1) with 2; lra|apply bpow_le; lia]. }
    assert (Cv : op_ok (to32 (mul64 (to64 w) (enc_scale q m))) (B2R (mul64 (to64 w) (enc_scale q m)))) by now apply (conv_ok (p':=24) (e':=128)).
    destruct Cv as (_ & Cv). rewrite K_finite in Cv by trivial. rewrite Cv.
    apply Rle_trans with (RN (p:=24) (e:=128) (- c)); [now apply RN_le|].
    destruct (ofZ_exact (p:=24) (e:=128) 1) as (O1 & O2); [lia|].
    assert (R1 : rn32 c = 1).
    { rewrite <- O2. apply rn32_near; rewrite O2; [lra|]. unfold c. replace (1 - bpow radix2 (-41) - 1) with (- bpow radix2 (-41)) by ring.
      rewrite Rabs_Ropp, Rabs_pos_eq by apply bpow_ge_0. rewrite Rmult_1_r. apply bpow_le; lia. }
    rewrite RN_opp, RN_inner, R1; [lra|]. rewrite R1, Rabs_R1. change 1 with (bpow radix2 0). apply bpow_lt. lia. }
  assert (A : (away (B2R (to32 (mul64 (to64 w) (enc_scale q m)))) <= -1)%Z).
  { rewrite <- (away_IZR (-1)). now apply away_mono. }
  replace (0 <=? away _)%Z with false; trivial. symmetry. apply Z.leb_gt. lia.
Qed.

Lemma encode_negative_ub nPol nChan q block ws w : (2 <= q <= 65536)%Z -> channel_weights nPol nChan block = Ok ws ->
  Forall (fun x => is_finite x = true) ws -> In w ws ->
  B2R w * IZR (q - 1) <= - B2R (max_value ws) -> is_finite (max_value ws) = true -> 0 < B2R (max_value ws) ->
  EncodeWeights nPol nChan q block = UB.
Proof.
  intros Hq E F I Hw Fm Pm. unfold EncodeWeights. rewrite E. cbn [bind].
  rewrite (mapM_UB (quantize q (max_value ws)) ws w); trivial.
  - apply quantize_negative; trivial. rewrite Forall_forall in F. now apply F.
  - intros x _. apply to_unsigned_not_throw.
Qed.

Lemma encode_missing_row_ub nPol nChan q block : (1 <= nChan)%nat -> In [] block ->
  EncodeWeights nPol nChan q block = UB.
Proof.
  intros Hc I. unfold EncodeWeights, channel_weights.
  assert (NT : forall r ch, channel_weight nPol r ch <> Throw).
  { intros r ch. unfold channel_weight. destruct (nPol =? 0)%nat; [discriminate|].
    unfold rd at 1. destruct (nth_error r (ch * nPol)) as [w|]; [|discriminate]. cbn [bind].
    generalize (seq 1 (nPol - 1)). intros l. revert w. induction l as [|p l IH]; intros w; cbn; [discriminate|].
    unfold rd. destruct (nth_error r (ch * nPol + p)); cbn; [apply IH|discriminate]. }
  assert (NT2 : forall r l, mapM (channel_weight nPol r) l <> Throw).
  { intros r l. induction l as [|c l IH]; cbn; [discriminate|]. specialize (NT r c).
    destruct (channel_weight nPol r c); cbn; try congruence; try discriminate.
    destruct (mapM (channel_weight nPol r) l); cbn; congruence. }
  rewrite (mapM_UB _ block []); trivial.
  - assert (S : exists k, nChan = S k) by (destruct nChan; [lia|eauto]). destruct S as (k & ->). cbn.
    unfold channel_weight. destruct (nPol =? 0)%nat; reflexivity.
Qed.

(** ** WeightEncoder<float> *)

Lemma we_all_zero q (input : list f32) : (2 <= q <= 65536)%Z -> input <> [] -> (forall w, In w input -> is_finite w = true /\ B2R w = 0) ->
  WeightEncode q input = UB.
Proof.
  intros Hq Ne Hz. destruct input as [|x t]; [easy|]. unfold WeightEncode. cbn [we_scale bind].
  set (m := fold_left pick_max t x).
  assert (Hm : is_finite m = true /\ B2R m = 0).
  { unfold m. assert (G : forall t x, (is_finite x = true /\ B2R x = 0) -> (forall w, In w t -> is_finite w = true /\ B2R w = 0) ->
      is_finite (fold_left pick_max t x) = true /\ B2R (fold_left pick_max t x) = 0).
    { clear. induction t as [|y t IH]; intros x Hx H; cbn; trivial. apply IH; [|intros; apply H; now right].
      unfold pick_max. destruct (Bltb x y); trivial. apply H. now left. }
    apply G; [apply Hz; now left|]. intros w Hw. apply Hz. now right. }
  destruct Hm as (Fm & Zm).
  assert (Mz : exists s, m = B754_zero s).
  { destruct m as [s| | |s k ex B]; try discriminate; [now exists s|]. exfalso. cbn in Zm.
    apply (eq_0_F2R radix2) in Zm. now destruct s. }
  destruct Mz as (s & Em).
  rewrite (mapM_UB _ (x :: t) x); trivial; [now left| |intros; apply to_unsigned_not_throw].
  unfold to_unsigned. rewrite roundf_finite. rewrite Em.
  destruct (Hz x) as (Fx & Zx); [now left|].
  assert (Xz : exists s', x = B754_zero s').
  { destruct x as [s'| | |s' k ex B]; try discriminate; [now exists s'|]. exfalso. cbn in Zx. apply (eq_0_F2R radix2) in Zx. now destruct s'. }
  destruct Xz as (s' & ->).
  destruct (ofZ_exact (p:=24) (e:=128) (q - 1)) as (Fq & Eq); [lia|]. change (ofZ (q - 1)) with (of32 (q - 1)) in *.
  destruct (of32 (q - 1)) as [z| | |z k ex B] eqn:O; try discriminate.
  - exfalso. cbn in Eq. apply (eq_IZR 0) in Eq. lia.
  - reflexivity.
Qed.

Section WE.
Variables (m w : f32) (q : Z).
Hypothesis Fm : is_finite m = true.
Hypothesis Rm : bpow radix2 (-100) <= B2R m <= bpow radix2 100.
Hypothesis Hq : (2 <= q <= 65536)%Z.
Hypothesis Fw : is_finite w = true.
Hypothesis Hw : 0 <= B2R w <= B2R m.
Let N := (q - 1)%Z.
Let fact := div32 (of32 N) m.
Let x := mul32 fact w.
Let sym := away (B2R x).
Let dfact := div32 m (of32 N).

Let HN : 1 <= IZR N <= 65535.
Proof. unfold N. split; apply IZR_le; lia. Qed.

Lemma rel32 r : bpow radix2 (-120) <= r -> Rabs (rn32 r - r) <= / 8388608 * r.
Proof.
  intros H. eapply Rle_trans; [apply rne_err|]. assert (0 < r) by (pose proof (bpow_gt_0 radix2 (-120)); lra).
  rewrite Rabs_pos_eq by lra. change (bpow radix2 (- (24))) with (/ 16777216). change (2 - 128 - 24)%Z with (-150)%Z.
  assert (bpow radix2 (-150) <= / 16777216 * r).
  { apply Rle_trans with (bpow radix2 (-24) * bpow radix2 (-120)); [rewrite <- bpow_plus; apply bpow_le; lia|].
    change (bpow radix2 (-24)) with (/ 16777216). apply Rmult_le_compat_l; lra. }
  lra.
Qed.

Let Pm : 0 < B2R m.
Proof. pose proof (bpow_gt_0 radix2 (-100)). lra. Qed.

Lemma we_N : is_finite (of32 N) = true /\ B2R (of32 N) = IZR N.
Proof. apply ofZ_exact. unfold N. lia. Qed.

Lemma we_fact : is_finite fact = true /\ Rabs (B2R fact - IZR N / B2R m) <= / 8388608 * (IZR N / B2R m).
Proof.
  destruct we_N as (F & E). assert (D : op_ok fact (IZR N / B2R m)) by (unfold fact; rewrite <- E; apply div_ok; trivial; lra).
  assert (I : bpow radix2 (-100) <= / B2R m <= bpow radix2 100).
  { split.
    - change (-100)%Z with (- (100))%Z. rewrite bpow_opp. apply Rinv_le; lra.
    - replace (bpow radix2 100) with (/ bpow radix2 (-100)) by (rewrite <- bpow_opp; reflexivity). apply Rinv_le; try lra. apply bpow_gt_0. }
  assert (Q : bpow radix2 (-100) <= IZR N / B2R m <= bpow radix2 116).
  { unfold Rdiv. split.
    - rewrite <- (Rmult_1_l (bpow radix2 (-100))). apply Rmult_le_compat; try lra. apply bpow_ge_0.
    - change 116%Z with (16 + 100)%Z. rewrite bpow_plus. change (bpow radix2 16) with 65536.
      apply Rmult_le_compat; try lra. pose proof (bpow_gt_0 radix2 (-100)). lra. }
  assert (Q0 : 0 <= IZR N / B2R m) by (pose proof (bpow_gt_0 radix2 (-100)); lra).
  destruct (op_ok_bounded _ _ 116 D) as (Ff & Ef & _); [rewrite Rabs_pos_eq; lra|lia|].
  split; trivial. rewrite Ef. apply rel32. apply Rle_trans with (bpow radix2 (-100)); [apply bpow_le; lia|lra].
Qed.

Lemma we_x : is_finite x = true /\ Rabs (B2R x - B2R w * IZR N / B2R m) <= / 4194304 * (B2R w * IZR N / B2R m) + bpow radix2 (-150).
Proof.
  destruct we_fact as (Ff & Ef). apply Rabs_le_inv in Ef. set (g := IZR N / B2R m) in *.
  assert (G0 : 0 < g) by (apply Rdiv_lt_0_compat; lra).
  replace (B2R w * IZR N / B2R m) with (B2R w * g) by (unfold g; field; lra).
  assert (T : 0 <= B2R w * g <= 65535).
  { split; [apply Rmult_le_pos; lra|]. apply Rle_trans with (B2R m * g); [apply Rmult_le_compat_r; lra|].
    unfold g. replace (B2R m * (IZR N / B2R m)) with (IZR N) by (field; lra). lra. }
  assert (M : op_ok x (B2R fact * B2R w)) by (unfold x; now apply mult_ok).
  assert (P : Rabs (B2R fact * B2R w - B2R w * g) <= / 8388608 * (B2R w * g)) by (apply Rabs_le; nra).
  apply Rabs_le_inv in P.
  destruct (op_ok_bounded _ _ 17 M) as (Fx & Ex & _); [rewrite Rabs_pos_eq by lra; change (bpow radix2 17) with 131072; lra|lia|].
  split; trivial. rewrite Ex. pose proof (rne_err (p:=24) (e:=128) (B2R fact * B2R w)) as R.
  rewrite (Rabs_pos_eq (B2R fact * B2R w)) in R by lra. change (2 - 128 - 24)%Z with (-150)%Z in R.
  change (bpow radix2 (- (24))) with (/ 16777216) in R. apply Rabs_le_inv in R. apply Rabs_le. lra.
Qed.

Lemma we_small : 0 < bpow radix2 (-150) <= / 1000.
Proof. split; [apply bpow_gt_0|]. apply Rle_trans with (bpow radix2 (-10)); [apply bpow_le; lia|change (bpow radix2 (-10)) with (/ 1024); lra]. Qed.

Lemma we_t : 0 <= B2R w * IZR N / B2R m <= IZR N.
Proof. exact (t_range m Pm q Hq w Hw). Qed.

Lemma we_sym : to_unsigned (roundf x) = Ok (Z.to_N sym) /\ (0 <= sym <= N)%Z.
Proof.
  destruct we_x as (Fx & Ex). pose proof we_t as T. pose proof we_small as S.
  set (t := B2R w * IZR N / B2R m) in *. apply Rabs_le_inv in Ex.
  pose proof (away_half (B2R x)) as H. apply Rabs_le_inv in H. fold sym in H.
  assert (R : (0 <= sym <= N)%Z).
  { split; [apply Z.lt_pred_le|apply Z.lt_succ_r]; apply lt_IZR.
    - change (IZR (Z.pred 0)) with (-1). lra.
    - unfold Z.succ. rewrite plus_IZR. lra. }
  split; trivial. unfold to_unsigned. rewrite roundf_finite, Fx.
  destruct (roundf_trunc x Fx) as (_ & ->). fold sym.
  replace (_ && _)%bool with true; trivial. symmetry. apply andb_true_iff. unfold N in R. split; [apply Z.leb_le|apply Z.ltb_lt]; lia.
Qed.

Lemma we_error : let v := mul32 (of32 sym) dfact in is_finite v = true /\
  Rabs (B2R v - B2R w) <= B2R m / (2 * IZR N) + bpow radix2 (-20) * B2R m.
Proof.
  intros v. destruct we_x as (Fx & Ex), we_sym as (_ & Rs), we_N as (Fn & En). pose proof we_t as T. pose proof we_small as Sm.
  pose proof (away_half (B2R x)) as H. fold sym in H.
  set (t := B2R w * IZR N / B2R m) in *.
  assert (S0 : 0 <= IZR sym <= IZR N) by (split; apply IZR_le; lia).
  set (g := B2R m / IZR N). assert (G0 : 0 < g) by (apply Rdiv_lt_0_compat; lra).
  assert (G1 : g <= B2R m).
  { unfold g. apply Rmult_le_reg_r with (IZR N); [lra|]. unfold Rdiv. rewrite Rmult_assoc, Rinv_l, Rmult_1_r by lra. nra. }
  assert (GL : bpow radix2 (-116) <= g).
  { unfold g, Rdiv. apply Rle_trans with (bpow radix2 (-100) * bpow radix2 (-16)); [rewrite <- bpow_plus; apply bpow_le; lia|].
    apply Rmult_le_compat; try apply bpow_ge_0; try lra. change (bpow radix2 (-16)) with (/ 65536). apply Rinv_le; lra. }
  assert (Df : is_finite dfact = true /\ Rabs (B2R dfact - g) <= / 8388608 * g).
  { assert (D : op_ok dfact g) by (unfold dfact, g; rewrite <- En; apply div_ok; trivial; rewrite En; lra).
    destruct (op_ok_bounded _ _ 100 D) as (Ff & Ef & _); [rewrite Rabs_pos_eq; lra|lia|]. split; trivial. rewrite Ef.
    apply rel32. apply Rle_trans with (bpow radix2 (-116)); trivial. apply bpow_le; lia. }
  destruct Df as (Fd & Ed). apply Rabs_le_inv in Ed.
  destruct (ofZ_exact (p:=24) (e:=128) sym) as (Fs & Es); [unfold N in *; lia|]. change (ofZ sym) with (of32 sym) in *.
  assert (M : op_ok v (IZR sym * B2R dfact)) by (unfold v; rewrite <- Es; now apply mult_ok).
  assert (U : 0 <= IZR sym * g <= B2R m).
  { split; [apply Rmult_le_pos; lra|]. apply Rle_trans with (IZR N * g); [apply Rmult_le_compat_r; lra|]. unfold g. apply Req_le. field. lra. }
  assert (P : Rabs (IZR sym * B2R dfact - IZR sym * g) <= / 8388608 * (IZR sym * g)) by (apply Rabs_le; nra).
  apply Rabs_le_inv in P.
  destruct (op_ok_bounded v _ 101 M) as (Fv & Ev & _).
  { rewrite Rabs_pos_eq by lra. change 101%Z with (1 + 100)%Z. rewrite bpow_plus. change (bpow radix2 1) with 2. lra. }
  { lia. }
  split; trivial. rewrite Ev. pose proof (rne_err (p:=24) (e:=128) (IZR sym * B2R dfact)) as R.
  rewrite (Rabs_pos_eq (IZR sym * B2R dfact)) in R by lra. change (2 - 128 - 24)%Z with (-150)%Z in R.
  change (bpow radix2 (- (24))) with (/ 16777216) in R. apply Rabs_le_inv in R, Ex, H.
  assert (E150 : bpow radix2 (-150) <= / 1000000000 * B2R m).
  { apply Rle_trans with (bpow radix2 (-50) * bpow radix2 (-100)); [rewrite <- bpow_plus; apply bpow_le; lia|].
    change (bpow radix2 (-50)) with (/ 1125899906842624). apply Rmult_le_compat; try apply bpow_ge_0; lra. }
  assert (St : Rabs (IZR sym - t) <= / 2 + / 4194304 * t + bpow radix2 (-150)) by (apply Rabs_le; lra).
  assert (Uw : Rabs (IZR sym * g - B2R w) <= B2R m / (2 * IZR N) + / 4194304 * B2R w + bpow radix2 (-150) * g).
  { replace (IZR sym * g - B2R w) with ((IZR sym - t) * g) by (unfold g, t; field; lra).
    rewrite Rabs_mult, (Rabs_pos_eq g) by lra.
    replace (B2R m / (2 * IZR N)) with (/ 2 * g) by (unfold g; field; lra).
    replace (/ 4194304 * B2R w) with (/ 4194304 * t * g) by (unfold t, g; field; lra).
    rewrite <- !Rmult_plus_distr_r. apply Rmult_le_compat_r; lra. }
  assert (bpow radix2 (-150) * g <= / 1000000000 * B2R m).
  { apply Rmult_le_compat; try lra; try apply bpow_ge_0.
    apply Rle_trans with (bpow radix2 (-50)); [apply bpow_le; lia|]. change (bpow radix2 (-50)) with (/ 1125899906842624). lra. }
  apply Rabs_le_inv in Uw. change (bpow radix2 (-20)) with (/ 1048576). apply Rabs_le. lra.
Qed.
End WE.

Lemma we_roundtrip q (input : list f32) : (2 <= q <= 65536)%Z -> Forall nonneg input ->
  (exists w, In w input /\ bpow radix2 (-100) <= B2R w) -> (forall w, In w input -> B2R w <= bpow radix2 100) ->
  exists m ss, WeightEncode q input = Ok (m, ss) /\ In m input /\ (forall w, In w input -> B2R w <= B2R m) /\
    Forall (fun s => (Z.of_N s < q)%Z) ss /\
    Forall2 (fun w v => is_finite v = true /\ Rabs (B2R v - B2R w) <= B2R m / (2 * IZR (q - 1)) + bpow radix2 (-20) * B2R m)
      input (WeightDecode q m ss).
Proof.
  intros Hq Hn (w1 & I1 & L1) Hu. destruct input as [|x t]; [easy|].
  inversion Hn as [|? ? Hx Ht]; subst. unfold WeightEncode. cbn [we_scale bind].
  destruct (max_fold t x Hx Ht) as ((Fm & Pm) & Lx & Lt & Ho). set (m := fold_left pick_max t x) in *.
  assert (Lm : forall w, In w (x :: t) -> B2R w <= B2R m) by (intros w [<-|I]; [exact Lx|now apply Lt]).
  assert (Im : In m (x :: t)) by (destruct Ho as [->|I]; [now left|now right]).
  assert (Rm : bpow radix2 (-100) <= B2R m <= bpow radix2 100) by (split; [apply Rle_trans with (B2R w1); auto|now apply Hu]).
  set (sym := fun w => away (B2R (mul32 (div32 (of32 (q - 1)) m) w))).
  rewrite (mapM_map _ (fun w => Z.to_N (sym w))).
  2: { intros w I. rewrite Forall_forall in Hn. destruct (Hn w I) as (Fw & Pw). apply (we_sym m w q); trivial. split; auto. }
  cbn [bind]. eexists m, _. split; [reflexivity|]. split; trivial. split; trivial. split.
  - apply Forall_forall. intros s Hs. apply in_map_iff in Hs. destruct Hs as (w & <- & I).
    rewrite Forall_forall in Hn. destruct (Hn w I) as (Fw & Pw).
    destruct (we_sym m w q Fm Rm Hq Fw (conj Pw (Lm w I))) as (_ & R). fold (sym w) in R. rewrite Z2N.id by lia. lia.
  - unfold WeightDecode. rewrite map_map.
    assert (G : forall l, (forall w, In w l -> In w (x :: t)) -> Forall2 (fun w v => is_finite v = true /\ Rabs (B2R v - B2R w) <= B2R m / (2 * IZR (q - 1)) + bpow radix2 (-20) * B2R m) l
       (map (fun w => mul32 (of32 (Z.of_N (Z.to_N (sym w)))) (div32 m (of32 (q - 1)))) l)).
    { induction l as [|w l IH]; intros Sub; constructor; [|apply IH; intros; apply Sub; now right].
      assert (I : In w (x :: t)) by (apply Sub; now left). rewrite Forall_forall in Hn. destruct (Hn w I) as (Fw & Pw).
      destruct (we_sym m w q Fm Rm Hq Fw (conj Pw (Lm w I))) as (_ & R). fold (sym w) in R. rewrite Z2N.id by lia.
      exact (we_error m w q Fm Rm Hq Fw (conj Pw (Lm w I))). }
    apply G. auto.
Qed.

(** ** One polarization: the channel weights are the values themselves *)

Lemma one_pol_row (r : row) n : length r = n -> mapM (channel_weight 1 r) (seq 0 n) = Ok r.
Proof.
  intros <-. assert (G : forall k, (k <= length r)%nat -> mapM (channel_weight 1 r) (seq (length r - k) k) = Ok (skipn (length r - k) r)).
  { induction k as [|k IH]; intros Hk.
    - cbn [seq mapM]. rewrite Nat.sub_0_r, skipn_all. reflexivity.
    - cbn [seq mapM]. destruct (nth_error r (length r - S k)) as [x|] eqn:E; [|apply nth_error_None in E; lia].
      unfold channel_weight at 1. cbn [Nat.eqb]. rewrite Nat.mul_1_r, (rd_nth _ _ _ E). cbn [bind Nat.sub seq foldM].
      replace (S (length r - S k)) with (length r - k)%nat by lia. rewrite IH by lia. cbn [bind]. f_equal.
      replace (length r - k)%nat with (S (length r - S k)) by lia. clear - E. revert E. generalize (length r - S k)%nat as i.
      induction r as [|y r IHr]; intros [|i] E; cbn in *; try discriminate; try congruence. now apply IHr. }
  specialize (G (length r) ltac:(lia)). now rewrite Nat.sub_diag in G.
Qed.

Lemma one_pol nChan block : regular 1 nChan block -> channel_weights 1 nChan block = Ok (concat block).
Proof.
  intros (_ & H). unfold channel_weights. rewrite (mapM_map _ (fun r => r)).
  - cbn [bind]. now rewrite map_id.
  - intros r I. rewrite Forall_forall in H. apply one_pol_row. rewrite (H r I). lia.
Qed.

Lemma one_pol_nonfinite nChan q block r w : regular 1 nChan block -> In r block -> In w r -> is_finite w = false ->
  EncodeWeights 1 nChan q block = UB.
Proof.
  intros R I Iw F. apply (encode_nonfinite_ub 1 nChan q block (concat block) w); trivial; [now apply one_pol|].
  apply in_concat. eauto.
Qed.

Lemma max_loop_finite ws : forall acc, is_finite acc = true -> 0 <= B2R acc -> Forall (fun x => is_finite x = true) ws ->
  let m := fold_left pick_max ws acc in is_finite m = true /\ B2R acc <= B2R m /\ (forall w, In w ws -> B2R w <= B2R m) /\ (m = acc \/ In m ws).
Proof.
  induction ws as [|w ws IH]; intros acc Fa Pa H; cbn zeta; cbn [fold_left].
  - repeat split; auto; try lra. intros w [].
  - inversion H as [|? ? Fw Hws]; subst. set (a1 := pick_max acc w).
    assert (F1 : is_finite a1 = true) by (unfold a1, pick_max; now destruct (Bltb acc w)).
    assert (L1 : B2R acc <= B2R a1 /\ B2R w <= B2R a1).
    { unfold a1, pick_max. destruct (Bltb acc w) eqn:E.
      - apply Bltb_K in E; try now apply finite_nan. rewrite !K_finite in E by trivial. lra.
      - assert (~ B2R acc < B2R w).
        { intros L. assert (Bltb acc w = true); [|congruence]. apply Bltb_K; try now apply finite_nan. now rewrite !K_finite. }
        lra. }
    destruct (IH a1 F1 (Rle_trans _ _ _ Pa (proj1 L1)) Hws) as (Fm & La & Lw & Ho).
    split; [exact Fm|]. split; [exact (Rle_trans _ _ _ (proj1 L1) La)|]. split.
    + intros x [<-|Hx]; [exact (Rle_trans _ _ _ (proj2 L1) La)|now apply Lw].
    + destruct Ho as [Ho|Ho]; [|right; right; exact Ho]. fold a1. rewrite Ho. unfold a1, pick_max.
      destruct (Bltb acc w); [right; now left|now left].
Qed.

Lemma max_value_finite ws M : Forall (fun x => is_finite x = true) ws -> (forall w, In w ws -> B2R w <= M) ->
  (1 <= M \/ exists w, In w ws /\ 0 < B2R w) ->
  is_finite (max_value ws) = true /\ 0 < B2R (max_value ws) <= M.
Proof.
  intros F HM Ho. destruct (max_loop_finite ws (B754_zero false) eq_refl (Rle_refl 0) F) as (Fm & P0 & Lw & Hi).
  change (fold_left _ ws (B754_zero false)) with (max_loop ws) in *. change (B2R (B754_zero false)) with 0 in P0.
  unfold max_value. destruct (Beqb (max_loop ws) (B754_zero false)) eqn:E.
  - apply Beqb_K in E; [|now apply finite_nan|trivial]. rewrite !K_finite in E by trivial. change (B2R (B754_zero false)) with 0 in E.
    destruct (ofZ_exact (p:=24) (e:=128) 1) as (F1 & E1); [lia|]. change (ofZ 1) with (of32 1) in *.
    rewrite E1. split; trivial. split; [lra|]. destruct Ho as [Ho|(w & I & P)]; trivial. specialize (Lw w I). lra.
  - assert (Ne : B2R (max_loop ws) <> 0).
    { intros Z. assert (T : Beqb (max_loop ws) (B754_zero false) = true).
      { apply Beqb_K; [now apply finite_nan|trivial|]. rewrite !K_finite by trivial. exact Z. }
      congruence. }
    split; trivial. split; [lra|]. destruct Hi as [Hi|Hi]; [rewrite Hi in Ne; now cbn in Ne|now apply HM].
Qed.

Lemma one_pol_negative nChan q block M r w : (2 <= q <= 65536)%Z -> regular 1 nChan block ->
  Forall (Forall (fun x => is_finite x = true /\ B2R x <= M)) block ->
  (1 <= M \/ exists r' w', In r' block /\ In w' r' /\ 0 < B2R w') ->
  In r block -> In w r -> B2R w * IZR (q - 1) <= - M ->
  EncodeWeights 1 nChan q block = UB.
Proof.
  intros Hq R F Ho I Iw Hw.
  assert (A : forall x, In x (concat block) -> is_finite x = true /\ B2R x <= M).
  { intros x Ix. apply in_concat in Ix. destruct Ix as (l & Il & Ix). rewrite Forall_forall in F. specialize (F l Il). rewrite Forall_forall in F. now apply F. }
  destruct (max_value_finite (concat block) M) as (Fm & Pm & Lm).
  - apply Forall_forall. intros x Ix. now apply A.
  - intros x Ix. now apply A.
  - destruct Ho as [Ho|(r' & w' & I1 & I2 & P)]; [now left|]. right. exists w'. split; trivial. apply in_concat. eauto.
  - apply (encode_negative_ub 1 nChan q block (concat block) w); trivial; [now apply one_pol| | |lra].
    + apply Forall_forall. intros x Ix. now apply A.
    + apply in_concat. eauto.
Qed.

(** a NaN in the first polarization of a channel *)
Lemma channel_nan nPol (r : row) ch (x : f32) : (1 <= nPol)%nat -> nth_error r (ch * nPol) = Some x -> is_nan x = true ->
  channel_weight nPol r ch = UB \/ channel_weight nPol r ch = Ok x.
Proof.
  intros Hp E N. unfold channel_weight. destruct (Nat.eqb_spec nPol 0); [lia|]. rewrite (rd_nth _ _ _ E). cbn [bind].
  generalize (seq 1 (nPol - 1)) as l. induction l as [|p l IH]; cbn [foldM]; [now right|].
  unfold rd at 1 3. destruct (nth_error r (ch * nPol + p)) as [y|]; cbn [bind]; [|now left].
  replace (Bltb y x) with false; trivial. destruct x; try discriminate. now destruct y.
Qed.

Lemma first_pol_nan_ub nPol nChan q block r ch x : regular nPol nChan block ->
  nth_error block r = Some x -> (ch < nChan)%nat -> (exists w, nth_error x (ch * nPol) = Some w /\ is_nan w = true) ->
  EncodeWeights nPol nChan q block = UB.
Proof.
  intros (Hp & R) Nr Hc (w & Nw & W). unfold EncodeWeights.
  assert (NT : forall r ch, channel_weight nPol r ch <> Throw).
  { clear. intros r ch. unfold channel_weight. destruct (nPol =? 0)%nat; [discriminate|].
    unfold rd at 1. destruct (nth_error r (ch * nPol)) as [w|]; [|discriminate]. cbn [bind].
    generalize (seq 1 (nPol - 1)). intros l. revert w. induction l as [|p l IH]; intros w; cbn; [discriminate|].
    unfold rd. destruct (nth_error r (ch * nPol + p)); cbn; [apply IH|discriminate]. }
  destruct (channel_weights nPol nChan block) as [ws| |] eqn:E; trivial.
  - rewrite <- E. change (EncodeWeights nPol nChan q block = UB). apply (encode_nonfinite_ub nPol nChan q block ws w); trivial.
    2: { destruct w; trivial; discriminate. }
    unfold channel_weights in E. destruct (mapM _ block) as [l| |] eqn:EM; try discriminate. injection E as <-.
    apply mapM_inv in EM. destruct (Forall2_nth _ _ _ EM r x Nr) as (wr & Nwr & Ewr).
    apply in_concat. exists wr. split; [eapply nth_error_In; eassumption|].
    apply mapM_inv in Ewr. destruct (Forall2_nth _ _ _ Ewr ch ch) as (v & Nv & Ev); [now rewrite nth_error_seq|].
    destruct (channel_nan nPol x ch w Hp Nw W) as [U|U]; [congruence|]. assert (v = w) as <- by congruence. eapply nth_error_In; eassumption.
  - exfalso. unfold channel_weights in E. destruct (mapM _ block) as [l| |] eqn:EM; try discriminate. clear E.
    assert (NT2 : forall r l, mapM (channel_weight nPol r) l <> Throw).
    { clear - NT. intros r l. induction l as [|c l IH]; cbn; [discriminate|]. specialize (NT r c).
      destruct (channel_weight nPol r c); cbn; try congruence; try discriminate.
      destruct (mapM (channel_weight nPol r) l); cbn; congruence. }
    clear - EM NT2. induction block as [|a b IH]; cbn in EM; [discriminate|]. specialize (NT2 a (seq 0 nChan)).
    destruct (mapM (channel_weight nPol a) (seq 0 nChan)); cbn in EM; try congruence.
    destruct (mapM _ b); cbn in EM; try discriminate. now apply IH.
Qed.
