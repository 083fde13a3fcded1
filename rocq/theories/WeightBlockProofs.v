(** Lemmas about whole blocks of weights. *)
From Coq Require Import Reals Lra.
From Flocq Require Import Core.
From Verif Require Import Base BaseLemmas Floats FloatLemmas Weights WeightSpec WeightProofs.
Local Open Scope R_scope.

Lemma pols_nth nPol r ch p : (p < nPol)%nat -> nth_error (pols nPol r ch) p = nth_error r (ch * nPol + p).
Proof. intros H. unfold pols. now rewrite nth_error_firstn_lt, nth_error_skipn_add. Qed.

Lemma nonneg_lt (x y : f32) : nonneg x -> nonneg y -> (Bltb x y = true <-> B2R x < B2R y).
Proof.
  intros (Fx & _) (Fy & _). rewrite Bltb_K by now apply finite_nan. now rewrite !K_finite.
Qed.

Lemma min_loop_ok (r : row) base : forall todo p w,
  (forall i, (p <= i < p + todo)%nat -> exists x, nth_error r (base + i) = Some x /\ nonneg x) -> nonneg w ->
  exists w', foldM (fun w p => do x <- rd r (base + p); Ok (if Bltb x w then x else w)) (seq p todo) w = Ok w' /\
    nonneg w' /\ (w' = w \/ exists i, (p <= i < p + todo)%nat /\ nth_error r (base + i) = Some w') /\
    B2R w' <= B2R w /\ forall i x, (p <= i < p + todo)%nat -> nth_error r (base + i) = Some x -> B2R w' <= B2R x.
Proof.
  induction todo as [|todo IH]; intros p w H Hw; cbn.
  - exists w. repeat split; try apply Hw; auto; try lra. intros; lia.
  - destruct (H p) as (x & Ex & Hx); [lia|]. rewrite (rd_nth _ _ _ Ex). cbn.
    set (w1 := if Bltb x w then x else w).
    assert (H1 : nonneg w1) by (unfold w1; now destruct (Bltb x w)).
    assert (L1 : B2R w1 <= B2R x /\ B2R w1 <= B2R w).
    { unfold w1. destruct (Bltb x w) eqn:E.
      - apply nonneg_lt in E; trivial. lra.
      - assert (~ B2R x < B2R w) by (intros L; apply nonneg_lt in L; trivial; congruence). lra. }
    destruct (IH (S p) w1) as (w' & E & Hw' & Ho & Lw & La); [intros; apply H; lia|trivial|].
    exists w'. split; trivial. split; trivial. split; [|split].
    + destruct Ho as [->|(i & Hi & Ni)].
      * unfold w1. destruct (Bltb x w); [right; exists p; split; [lia|trivial]|now left].
      * right. exists i. split; [lia|trivial].
    + lra.
    + intros i y Hi Ny. destruct (Nat.eq_dec i p) as [->|]; [|apply (La i); trivial; lia].
      assert (y = x) as -> by congruence. lra.
Qed.

Lemma channel_weight_ok nPol nChan (r : row) ch : (1 <= nPol)%nat -> length r = (nChan * nPol)%nat ->
  Forall nonneg r -> (ch < nChan)%nat ->
  exists w, channel_weight nPol r ch = Ok w /\ smallest w (pols nPol r ch) /\ nonneg w.
Proof.
  intros Hp Hl Hn Hc.
  assert (G : forall i, (i < nPol)%nat -> exists x, nth_error r (ch * nPol + i) = Some x /\ nonneg x).
  { intros i Hi. destruct (nth_error r (ch * nPol + i)) as [x|] eqn:E.
    - exists x. split; trivial. rewrite Forall_forall in Hn. apply Hn. eapply nth_error_In; eassumption.
    - apply nth_error_None in E. nia. }
  unfold channel_weight. replace (nPol =? 0)%nat with false by (symmetry; apply Nat.eqb_neq; lia).
  destruct (G 0%nat) as (w0 & E0 & H0); [lia|]. rewrite Nat.add_0_r in E0. rewrite (rd_nth _ _ _ E0). cbn [bind].
  destruct (min_loop_ok r (ch * nPol) (nPol - 1) 1 w0) as (w & E & Hw & Ho & Lw & La); trivial.
  { intros i Hi. apply G. lia. }
  exists w. split; trivial. split; trivial. split.
  - destruct Ho as [->|(i & Hi & Ni)].
    + apply (nth_error_In _ 0). rewrite pols_nth by lia. now rewrite Nat.add_0_r.
    + apply (nth_error_In _ i). rewrite pols_nth by lia. exact Ni.
  - intros x Hx. apply In_nth_error in Hx. destruct Hx as (i & Hi).
    assert (Li : (i < nPol)%nat).
    { assert (i < length (pols nPol r ch))%nat by (apply nth_error_Some; congruence).
      unfold pols in H. rewrite firstn_length in H. lia. }
    rewrite pols_nth in Hi by trivial. destruct i as [|i].
    + rewrite Nat.add_0_r in Hi. assert (x = w0) as -> by congruence. exact Lw.
    + apply (La (S i)); trivial. lia.
Qed.

Lemma channel_weights_ok nPol nChan block : regular nPol nChan block -> Forall (Forall nonneg) block ->
  exists ws, channel_weights nPol nChan block = Ok ws /\ length ws = (length block * nChan)%nat /\ Forall nonneg ws /\
  forall r rw ch, nth_error block r = Some rw -> (ch < nChan)%nat ->
    exists w, nth_error ws (r * nChan + ch) = Some w /\ smallest w (pols nPol rw ch).
Proof.
  intros (Hp & Hr) Hn. unfold channel_weights.
  destruct (mapM_ok (fun r => mapM (channel_weight nPol r) (seq 0 nChan))
    (fun r ws => length ws = nChan /\ Forall nonneg ws /\
      forall ch, (ch < nChan)%nat -> exists w, nth_error ws ch = Some w /\ smallest w (pols nPol r ch)) block) as (l & E & F).
  { intros r Hin. rewrite Forall_forall in Hr, Hn. specialize (Hr r Hin). specialize (Hn r Hin).
    destruct (mapM_ok (channel_weight nPol r) (fun ch w => smallest w (pols nPol r ch) /\ nonneg w) (seq 0 nChan)) as (ws & E & F).
    { intros ch Hc. apply in_seq in Hc. destruct (channel_weight_ok nPol nChan r ch Hp Hr Hn ltac:(lia)) as (w & ? & ? & ?). now exists w. }
    exists ws. split; trivial. split; [rewrite (Forall2_len _ _ _ F); apply seq_length|]. split.
    - apply Forall_forall. intros w Hw. apply In_nth_error in Hw. destruct Hw as (i & Hi).
      destruct (Forall2_nth_r _ _ _ F i w Hi) as (? & _ & _ & ?). trivial.
    - intros ch Hc. destruct (Forall2_nth _ _ _ F ch ch) as (w & Nw & Sw & _); [now rewrite nth_error_seq|]. now exists w. }
  rewrite E. cbn [bind].
  assert (FL : Forall (fun ws => length ws = nChan) l).
  { apply Forall_forall. intros ws Hw. apply In_nth_error in Hw. destruct Hw as (i & Hi).
    destruct (Forall2_nth_r _ _ _ F i ws Hi) as (? & _ & ? & _). trivial. }
  exists (concat l). split; trivial. split; [rewrite (concat_length_const _ _ FL); now rewrite (Forall2_len _ _ _ F)|]. split.
  - apply Forall_concat. apply Forall_forall. intros ws Hw. apply In_nth_error in Hw. destruct Hw as (i & Hi).
    destruct (Forall2_nth_r _ _ _ F i ws Hi) as (? & _ & _ & ? & _). trivial.
  - intros r rw ch Nr Hc. destruct (Forall2_nth _ _ _ F r rw Nr) as (ws & Nw & _ & _ & G).
    destruct (G ch Hc) as (w & N2 & S2). exists w. split; trivial. rewrite (concat_nth _ _ FL r ch ws); trivial.
Qed.

(** the maximum *)
Lemma zero_nonneg : nonneg (B754_zero false).
Proof. split; trivial. cbn. lra. Qed.

Lemma max_fold ws : forall acc, nonneg acc -> Forall nonneg ws ->
  let m := fold_left pick_max ws acc in
  nonneg m /\ B2R acc <= B2R m /\ (forall w, In w ws -> B2R w <= B2R m) /\ (m = acc \/ In m ws).
Proof.
  induction ws as [|w ws IH]; intros acc Ha H; cbn zeta; cbn [fold_left].
  - repeat split; try apply Ha; auto; try lra. intros w [].
  - inversion H as [|? ? Hw Hws]; subst.
    set (a1 := pick_max acc w).
    assert (H1 : nonneg a1) by (unfold a1, pick_max; now destruct (Bltb acc w)).
    assert (L1 : B2R acc <= B2R a1 /\ B2R w <= B2R a1).
    { unfold a1, pick_max. destruct (Bltb acc w) eqn:E.
      - apply nonneg_lt in E; trivial. lra.
      - assert (~ B2R acc < B2R w) by (intros L; apply nonneg_lt in L; trivial; congruence). lra. }
    destruct (IH a1 H1 Hws) as (Hm & La & Lw & Ho). split; [exact Hm|]. split; [exact (Rle_trans _ _ _ (proj1 L1) La)|]. split.
    + intros x [<-|Hx]; [exact (Rle_trans _ _ _ (proj2 L1) La)|now apply Lw].
    + destruct Ho as [Ho|Ho]; [|right; right; exact Ho]. fold a1. rewrite Ho. unfold a1, pick_max. destruct (Bltb acc w); [right; now left|now left].
Qed.

Lemma max_value_ok ws : Forall nonneg ws ->
  let m := max_value ws in is_finite m = true /\ 0 < B2R m /\ (forall w, In w ws -> B2R w <= B2R m) /\
  (In m ws \/ (B2R m = 1 /\ forall w, In w ws -> B2R w = 0)).
Proof.
  intros H. cbn zeta. destruct (max_fold ws (B754_zero false) zero_nonneg H) as ((Fm & Pm) & _ & Lw & Ho).
  change (fold_left _ ws (B754_zero false)) with (max_loop ws) in *.
  unfold max_value. destruct (Beqb (max_loop ws) (B754_zero false)) eqn:E.
  - apply Beqb_K in E; [|now apply finite_nan|trivial]. rewrite !K_finite in E by trivial. cbn in E.
    assert (Z : forall w, In w ws -> B2R w = 0).
    { intros w Hw. specialize (Lw w Hw). rewrite Forall_forall in H. destruct (H w Hw). lra. }
    destruct (ofZ_exact (p:=24) (e:=128) 1) as (F1 & E1); [lia|]. change (ofZ 1) with (of32 1) in *.
    rewrite E1. split; trivial. split; [lra|]. split; [intros w Hw; rewrite (Z w Hw); lra|]. right. split; trivial.
  - assert (Ne : B2R (max_loop ws) <> 0).
    { intros Z. assert (T : Beqb (max_loop ws) (B754_zero false) = true).
      { apply Beqb_K; [now apply finite_nan|trivial|]. rewrite !K_finite by trivial. exact Z. }
      congruence. }
    split; trivial. split; [lra|]. split; trivial. left. destruct Ho as [Ho|Ho]; trivial. rewrite Ho in Ne. now cbn in Ne.
Qed.

Section Block.
Variables (nPol nChan : nat) (q : Z) (block : list row).
Hypothesis Hr : regular nPol nChan block.
Hypothesis Hn : Forall (Forall nonneg) block.
Hypothesis Hq : (2 <= q <= 65536)%Z.

Lemma encode_ok : exists m ws ss, EncodeWeights nPol nChan q block = Ok (m, ss) /\
  channel_weights nPol nChan block = Ok ws /\ m = max_value ws /\ Forall nonneg ws /\
  is_finite m = true /\ 0 < B2R m /\ (forall w, In w ws -> B2R w <= B2R m) /\
  ss = map (fun w => Z.to_N (qsym m q w)) ws /\ length ws = (length block * nChan)%nat /\
  (forall r rw ch, nth_error block r = Some rw -> (ch < nChan)%nat ->
    exists w, nth_error ws (r * nChan + ch) = Some w /\ smallest w (pols nPol rw ch)).
Proof.
  destruct (channel_weights_ok nPol nChan block Hr Hn) as (ws & E & L & F & G).
  destruct (max_value_ok ws F) as (Fm & Pm & Lm & Ho). set (m := max_value ws) in *.
  exists m, ws, (map (fun w => Z.to_N (qsym m q w)) ws).
  split; [|repeat (split; trivial)].
  unfold EncodeWeights. rewrite E. cbn [bind]. fold m.
  rewrite (mapM_map (quantize q m) (fun w => Z.to_N (qsym m q w))); [reflexivity|].
  intros w Hw. rewrite Forall_forall in F. destruct (F w Hw) as (Fw & Pw).
  apply (quantize_ok m Fm Pm q Hq w Fw). split; trivial. now apply Lm.
Qed.

Lemma decode_ok m ss r : (forall ch, (ch < nChan)%nat -> exists s, nth_error ss (r * nChan + ch) = Some s) ->
  exists out, DecodeWeights nPol nChan q m ss r = Ok out /\ length out = (nChan * nPol)%nat /\
  forall ch s p, (ch < nChan)%nat -> (p < nPol)%nat -> nth_error ss (r * nChan + ch) = Some s ->
    nth_error out (ch * nPol + p) = Some (dequantize q m s).
Proof.
  intros H. unfold DecodeWeights.
  destruct (mapM_ok (fun ch => do s <- rd ss (r * nChan + ch); Ok (repeat (dequantize q m s) nPol))
    (fun ch l => length l = nPol /\ forall s, nth_error ss (r * nChan + ch) = Some s -> l = repeat (dequantize q m s) nPol) (seq 0 nChan)) as (l & E & F).
  { intros ch Hc. apply in_seq in Hc. destruct (H ch ltac:(lia)) as (s & Ns). rewrite (rd_nth _ _ _ Ns). cbn [bind].
    eexists. split; [reflexivity|]. split; [apply repeat_length|]. intros s' Ns'. congruence. }
  rewrite E. cbn [bind].
  assert (FL : Forall (fun x => length x = nPol) l).
  { apply Forall_forall. intros ws Hw. apply In_nth_error in Hw. destruct Hw as (i & Hi).
    destruct (Forall2_nth_r _ _ _ F i ws Hi) as (? & _ & ? & _). trivial. }
  eexists. split; [reflexivity|]. split; [rewrite (concat_length_const _ _ FL), (Forall2_len _ _ _ F), seq_length; trivial|].
  intros ch s p Hc Hp Ns. destruct (Forall2_nth _ _ _ F ch ch) as (x & Nx & Lx & Ex); [now rewrite nth_error_seq|].
  rewrite (concat_nth _ _ FL ch p x) by trivial. rewrite (Ex s Ns). now apply nth_error_repeat_lt.
Qed.

(** the full round trip *)
Lemma weights_roundtrip : exists m ss, EncodeWeights nPol nChan q block = Ok (m, ss) /\
  length ss = (length block * nChan)%nat /\ Forall (fun s => (Z.of_N s < q)%Z) ss /\
  is_finite m = true /\ 0 < B2R m /\
  (forall r rw, nth_error block r = Some rw -> exists out, DecodeWeights nPol nChan q m ss r = Ok out /\
    length out = (nChan * nPol)%nat /\
    forall ch, (ch < nChan)%nat -> exists w v, smallest w (pols nPol rw ch) /\
      (forall p, (p < nPol)%nat -> nth_error out (ch * nPol + p) = Some v) /\
      nonneg v /\
      Rabs (B2R v - B2R w) <= B2R m / (2 * IZR (q - 1)) + bpow radix2 (-21) * B2R m + bpow radix2 (-149) /\
      B2R w <= B2R m /\ (B2R w = 0 -> B2R v = 0) /\ (B2R w = B2R m -> B2R v = B2R m)) /\
  ((exists r rw ch, nth_error block r = Some rw /\ (ch < nChan)%nat /\ smallest m (pols nPol rw ch)) \/
   (B2R m = 1 /\ forall r rw ch w, nth_error block r = Some rw -> (ch < nChan)%nat -> smallest w (pols nPol rw ch) -> B2R w = 0)).
Proof.
  destruct encode_ok as (m & ws & ss & E & Ew & Em & Fw & Fm & Pm & Lm & -> & Ls & G).
  exists m, (map (fun w => Z.to_N (qsym m q w)) ws). split; trivial. split; [now rewrite map_length|].
  split; [|split; [trivial|split; [trivial|split]]].
  - apply Forall_forall. intros s Hs. apply in_map_iff in Hs. destruct Hs as (w & <- & Hw).
    rewrite Forall_forall in Fw. destruct (Fw w Hw) as (F1 & P1).
    destruct (quantize_ok m Fm Pm q Hq w F1 (conj P1 (Lm w Hw))) as (_ & Q). rewrite Z2N.id by lia. lia.
  - intros r rw Nr.
    assert (NS : forall ch, (ch < nChan)%nat -> exists w, smallest w (pols nPol rw ch) /\ In w ws /\
      nth_error (map (fun w => Z.to_N (qsym m q w)) ws) (r * nChan + ch) = Some (Z.to_N (qsym m q w))).
    { intros ch Hc. destruct (G r rw ch Nr Hc) as (w & Nw & Sw). exists w. split; trivial.
      split; [eapply nth_error_In; eassumption|]. now apply map_nth_error with (f := fun w => Z.to_N (qsym m q w)). }
    destruct (decode_ok m (map (fun w => Z.to_N (qsym m q w)) ws) r) as (out & Eo & Lo & Go).
    { intros ch Hc. destruct (NS ch Hc) as (w & _ & _ & ?). eexists; eassumption. }
    exists out. split; trivial. split; trivial. intros ch Hc. destruct (NS ch Hc) as (w & Sw & Iw & Nw).
    exists w, (dequantize q m (Z.to_N (qsym m q w))). rewrite Forall_forall in Fw. destruct (Fw w Iw) as (F1 & P1).
    assert (Hw : 0 <= B2R w <= B2R m) by (split; [trivial|now apply Lm]).
    destruct (quantize_ok m Fm Pm q Hq w F1 Hw) as (_ & Q).
    destruct (dequant_val m Fm Pm q Hq (qsym m q w) Q) as (Fv & _ & Rv & _).
    split; trivial. split; [intros p Hp; now apply Go|]. split; [split; [trivial|lra]|].
    split; [now apply weight_error|]. split; [lra|]. split.
    + intros Z. rewrite (qsym_zero m Fm Pm q Hq w F1 Z). now apply dequant_zero.
    + intros Z. rewrite (qsym_max m Fm Pm q Hq w F1 Z). now apply dequant_max.
  - destruct (max_value_ok ws Fw) as (_ & _ & _ & Ho). rewrite <- Em in Ho. destruct Ho as [Ho|(O1 & Oz)].
    + left. apply In_nth_error in Ho. destruct Ho as (i & Hi).
      assert (Li : (i < length block * nChan)%nat) by (rewrite <- Ls; apply nth_error_Some; congruence).
      assert (C0 : nChan <> 0%nat) by (intros ->; lia).
      assert (Er : (i / nChan < length block)%nat) by (apply Nat.div_lt_upper_bound; lia).
      destruct (nth_error block (i / nChan)) as [rw|] eqn:Nr; [|apply nth_error_None in Nr; lia].
      assert (Hc : (i mod nChan < nChan)%nat) by (apply Nat.mod_upper_bound; trivial).
      exists (i / nChan)%nat, rw, (i mod nChan)%nat. split; trivial. split; trivial.
      destruct (G _ rw _ Nr Hc) as (w & Nw & Sw). replace (i / nChan * nChan + i mod nChan)%nat with i in Nw
        by (rewrite (Nat.div_mod i nChan C0) at 1; lia). assert (w = m) as -> by congruence. exact Sw.
    + right. split; trivial. intros r rw ch w Nr Hc (I1 & S1). destruct (G r rw ch Nr Hc) as (w' & Nw & (I2 & S2)).
      pose proof (S1 w' I2). pose proof (S2 w I1). rewrite <- (Oz w'); [lra|]. eapply nth_error_In; eassumption.
Qed.

(** order is preserved over the whole block *)
Lemma weights_order m ss : EncodeWeights nPol nChan q block = Ok (m, ss) ->
  forall r rw ch w r' rw' ch' w' out out' v v',
  nth_error block r = Some rw -> (ch < nChan)%nat -> smallest w (pols nPol rw ch) ->
  nth_error block r' = Some rw' -> (ch' < nChan)%nat -> smallest w' (pols nPol rw' ch') ->
  B2R w <= B2R w' ->
  DecodeWeights nPol nChan q m ss r = Ok out -> nth_error out (ch * nPol) = Some v ->
  DecodeWeights nPol nChan q m ss r' = Ok out' -> nth_error out' (ch' * nPol) = Some v' ->
  B2R v <= B2R v'.
Proof.
  intros E r rw ch w r' rw' ch' w' out out' v v' Nr Hc Sw Nr' Hc' Sw' Lww D Nv D' Nv'.
  destruct encode_ok as (m0 & ws & ss0 & E0 & Ew & Em & Fw & Fm & Pm & Lm & Es & Ls & G).
  rewrite E in E0. injection E0 as <- <-.
  assert (Hp : (0 < nPol)%nat) by (destruct Hr; lia).
  assert (X : forall r rw ch w out v, nth_error block r = Some rw -> (ch < nChan)%nat -> smallest w (pols nPol rw ch) ->
     DecodeWeights nPol nChan q m ss r = Ok out -> nth_error out (ch * nPol) = Some v ->
     exists x, In x ws /\ B2R x = B2R w /\ v = dequantize q m (Z.to_N (qsym m q x))).
  { clear - Es G Hp Hr. intros r rw ch w out v Nr Hc (I1 & S1) D Nv.
    destruct (G r rw ch Nr Hc) as (x & Nx & (I2 & S2)). exists x. split; [eapply nth_error_In; eassumption|].
    split; [apply Rle_antisym; [now apply S2|now apply S1]|].
    destruct (decode_ok m ss r) as (o & Do & _ & Go).
    { intros c Hc'. destruct (G r rw c Nr Hc') as (y & Ny & _). rewrite Es. exists (Z.to_N (qsym m q y)).
      now apply map_nth_error with (f := fun w => Z.to_N (qsym m q w)). }
    rewrite D in Do. injection Do as <-.
    assert (Ns : nth_error ss (r * nChan + ch) = Some (Z.to_N (qsym m q x)))
      by (rewrite Es; now apply map_nth_error with (f := fun w => Z.to_N (qsym m q w))).
    specialize (Go ch _ 0%nat Hc Hp Ns). rewrite Nat.add_0_r in Go. congruence. }
  destruct (X r rw ch w out v Nr Hc Sw D Nv) as (x & Ix & Bx & ->).
  destruct (X r' rw' ch' w' out' v' Nr' Hc' Sw' D' Nv') as (x' & Ix' & Bx' & ->).
  rewrite Forall_forall in Fw. destruct (Fw x Ix) as (F1 & P1), (Fw x' Ix') as (F2 & P2).
  assert (Q1 := quantize_ok m Fm Pm q Hq x F1 (conj P1 (Lm x Ix))).
  assert (Q2 := quantize_ok m Fm Pm q Hq x' F2 (conj P2 (Lm x' Ix'))).
  apply dequant_mono; trivial; [|lia]. split; [lia|]. apply qsym_mono; trivial. lra. now apply Lm.
Qed.
End Block.
