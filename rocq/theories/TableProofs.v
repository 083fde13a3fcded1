(** Tables whose entries are close to the quantiles of a symmetric distribution.
    Proof file. *)
From Coq Require Import Reals Lra Psatz Lia.
From Flocq Require Import Core.
From Verif Require Import Base BaseLemmas Floats FloatLemmas StochasticEncoder EncSpec StochasticEncoderProofs EncoderCtorProofs TimeBlockEncoders TbeSpec TableSpec.
Local Open Scope R_scope.

Section Table.
Context (q : nat) (bnd val : nat -> f32) (ea da : list f32) (Q : R -> R -> Prop) (a b : R).
Notation N := (IZR (Z.of_nat q - 1)).
Notation h := (/ (2 * N)).
Hypotheses (Hq : (3 <= q)%nat) (Hea : length ea = (q - 1)%nat) (Hda : length da = q) (Ha : 0 <= a <= 1) (Hb0 : 0 <= b).
Hypothesis HQ : forall p, h <= p <= 1 - h -> exists v, Q p v.
Hypothesis Hb : forall i, (1 <= i <= q - 2)%nat -> is_finite (bnd i) = true /\ forall v, Q (bnd_p q i) v -> Rabs (B2R (bnd i) - v) <= a * Rabs v + b.
Hypothesis Hv : forall i, (i <= q - 2)%nat -> is_finite (val i) = true /\ forall v, Q (val_p q i) v -> Rabs (B2R (val i) - v) <= a * Rabs v + b.
Hypothesis HG : forall p p' v v', h <= p -> p + h <= p' -> p' <= 1 - h -> Q p v -> Q p' v' -> a * (Rabs v + Rabs v') + 2 * b < v' - v.
Hypothesis Hodd : forall p v, h <= p <= 1 - h -> Q p v -> Q (1 - p) (- v).
Hypothesis Hlev : forall v, Q (1 - h) v -> 0 < v /\ 2 * a * v + 2 * b <= bpow radix2 (-22) * ((1 - a) * v - b).

Lemma N_ge : 2 <= N.
Proof. apply IZR_le. lia. Qed.

Lemma h_val : 0 < h /\ h * N = / 2.
Proof. pose proof N_ge. split; [apply Rinv_0_lt_compat; lra|field; lra]. Qed.

Lemma bnd_p_h i : bnd_p q i = 2 * IZR (Z.of_nat i) * h.
Proof. pose proof N_ge. unfold bnd_p. field. lra. Qed.
Lemma val_p_h i : val_p q i = (2 * IZR (Z.of_nat i) + 1) * h.
Proof. pose proof N_ge. unfold val_p. field. lra. Qed.

Lemma one_h : 1 = 2 * N * h.
Proof. pose proof h_val. lra. Qed.

Lemma idx i : (i <= q - 2)%nat -> 0 <= IZR (Z.of_nat i) <= N - 1.
Proof. intros H. split; [apply IZR_le; lia|]. rewrite <- minus_IZR. apply IZR_le. lia. Qed.

Lemma idx_lt i j : (i < j)%nat -> IZR (Z.of_nat i) + 1 <= IZR (Z.of_nat j).
Proof. intros H. rewrite <- plus_IZR. apply IZR_le. lia. Qed.

Lemma ordered p p' x x' : h <= p -> p + h <= p' -> p' <= 1 - h -> is_finite x = true -> is_finite x' = true ->
  (forall v, Q p v -> Rabs (B2R x - v) <= a * Rabs v + b) -> (forall v, Q p' v -> Rabs (B2R x' - v) <= a * Rabs v + b) -> Bltb (x : f32) x' = true.
Proof.
  intros H1 H2 H3 Fx Fx' Ex Ex'. destruct h_val as (Ph & _). destruct (HQ p ltac:(lra)) as (v & Qv). destruct (HQ p' ltac:(lra)) as (v' & Qv').
  specialize (Ex v Qv). specialize (Ex' v' Qv'). pose proof (HG p p' v v' H1 H2 H3 Qv Qv') as G. apply Rabs_le_inv in Ex, Ex'.
  apply Bltb_K; try (now apply finite_nan). rewrite !K_finite by trivial. lra.
Qed.

Lemma stable e : construct q bnd val ea da = Ok e -> well_formed e -> QuantizationCount e = q -> forall i, (i <= q - 2)%nat -> Encode e (val i) = Ok i.
Proof.
  intros Ee We Qe i Hi. destruct h_val as (Ph & Eh). pose proof one_h as E1. destruct (Hv i Hi) as (Fv & Ev).
  destruct (encode_interval e We (val i) Fv) as (s & b0 & Es & Hs & Hn & Hle & Hlt). rewrite Es. f_equal. rewrite Qe in Hs.
  assert (Ec : enc e = map bnd (seq 1 (q - 2)) ++ [max32]) by (rewrite construct_ok in Ee by (trivial; lia); injection Ee as <-; reflexivity).
  assert (Eb : forall j, (j < q - 2)%nat -> nth_error (enc e) j = Some (bnd (S j))).
  { intros j Hj. rewrite Ec, nth_error_app1 by (rewrite map_length, seq_length; lia). rewrite map_seq_nth by lia. reflexivity. }
  pose proof (idx i Hi) as Bi.
  destruct (lt_eq_lt_dec s i) as [[L|E]|L]; [|exact E|].
  - rewrite Eb in Hn by lia. injection Hn as <-. destruct (Hb (S s) ltac:(lia)) as (Fb & Eb').
    pose proof (idx (S s) ltac:(lia)) as Bs. assert (IZR (Z.of_nat (S s)) <= IZR (Z.of_nat i)) by (apply IZR_le; lia).
    pose proof (idx_lt 0 (S s) ltac:(lia)) as I0. change (IZR (Z.of_nat 0)) with 0 in I0.
    assert (O : Bltb (bnd (S s)) (val i) = true) by (apply (ordered (bnd_p q (S s)) (val_p q i)); trivial; rewrite ?bnd_p_h, ?val_p_h; nra).
    exfalso. apply Bltb_K in O; try (now apply finite_nan). apply Bleb_true in Hle. rewrite !K_finite in * by trivial. lra.
  - specialize (Hlt i (bnd (S i)) L (Eb i ltac:(lia))). destruct (Hb (S i) ltac:(lia)) as (Fb & Eb').
    pose proof (idx (S i) ltac:(lia)) as Bs. pose proof (idx_lt i (S i) ltac:(lia)) as I0.
    assert (O : Bltb (val i) (bnd (S i)) = true) by (apply (ordered (val_p q i) (bnd_p q (S i))); trivial; rewrite ?bnd_p_h, ?val_p_h; nra).
    exfalso. apply Bltb_K in O, Hlt; try (now apply finite_nan). rewrite !K_finite in * by trivial. lra.
Qed.

Lemma table_ok (quantile : R -> R -> Prop) :
  (forall p z x, quantile p z -> (forall v, Q p v -> Rabs (B2R x - v) <= a * Rabs v + b) -> close32 x z) ->
  exists e, construct q bnd val ea da = Ok e /\ table_of quantile q e.
Proof.
  intros Hcl.
  destruct h_val as (Ph & Eh). pose proof one_h as E1. pose proof N_ge as Hn.
  assert (Hh : h <= / 4) by (apply Rinv_le_contravar; lra).
  destruct (construct_wf q bnd val ea da Hq Hea Hda) as (e & Ee & We & Qe & De & Be).
  - intros i Hi. apply Hb. lia.
  - intros i j Hi Hj. apply Bltb_Bleb. pose proof (idx i ltac:(lia)). pose proof (idx j ltac:(lia)). pose proof (idx_lt i j ltac:(lia)). pose proof (idx_lt 0 i ltac:(lia)) as I0. cbn in I0.
    apply (ordered (bnd_p q i) (bnd_p q j)); try apply Hb; try lia; rewrite ?bnd_p_h; nra.
  - intros i Hi. apply Hv. lia.
  - intros i j Hi Hj. pose proof (idx i ltac:(lia)). pose proof (idx j ltac:(lia)). pose proof (idx_lt i j ltac:(lia)).
    apply (ordered (val_p q i) (val_p q j)); try apply Hv; try lia; rewrite ?val_p_h; nra.
  - exists e. split; [exact Ee|]. split; [exact We|exact Qe| | | |].
    2: { intros i z Hi Qz. exists (val i). destruct (Hv i ltac:(lia)) as (Fv & Ev). split; [apply De; lia|]. split; [exact Fv|]. apply (Hcl (val_p q i)); trivial. }
    2: { intros i z Hi Qz. exists (bnd (S i)). replace (i + 1)%nat with (S i) in Qz by lia. destruct (Hb (S i) ltac:(lia)) as (Fb & Eb). split; [|split; [exact Fb|apply (Hcl (bnd_p q (S i))); trivial]].
         unfold RightBoundary. rewrite (wf_len e We). unfold QuantizationCount in Qe. replace (i =? length (dec e))%nat with false by (symmetry; apply Nat.eqb_neq; lia).
         unfold rd. rewrite Be by lia. reflexivity. }
    2: { intros i x Hi Dx. rewrite De in Dx by lia. assert (x = val i) as -> by congruence. apply (stable e Ee We Qe). lia. }
    assert (Ed : dec e = map val (seq 0 (q - 1))) by (rewrite construct_ok in Ee by (trivial; lia); injection Ee as <-; reflexivity).
    exists (val (q - 2)%nat). destruct (Hv (q - 2)%nat ltac:(lia)) as (Fl & El). destruct (Hv 0%nat ltac:(lia)) as (F0 & E0).
    assert (El' : IZR (Z.of_nat (q - 2)) = N - 1) by (rewrite <- minus_IZR; f_equal; lia).
    assert (Pl : val_p q (q - 2) = 1 - h) by (rewrite val_p_h, El'; lra).
    assert (P0 : val_p q 0 = 1 - (1 - h)) by (rewrite val_p_h; cbn; lra).
    destruct (HQ (1 - h) ltac:(lra)) as (v & Qv). pose proof (Hlev v Qv) as (Pv & Lv). rewrite Pl in El. specialize (El v Qv).
    rewrite P0 in E0. specialize (E0 (- v) (Hodd (1 - h) v ltac:(lra) Qv)). rewrite Rabs_Ropp, (Rabs_pos_eq v) in E0 by lra. rewrite (Rabs_pos_eq v) in El by lra.
    apply Rabs_le_inv in El, E0. pose proof (bpow_gt_0 radix2 (-22)) as Pb.
    assert (LL : (1 - a) * v - b <= B2R (val (q - 2)%nat)) by lra.
    assert (LB : bpow radix2 (-22) * ((1 - a) * v - b) <= bpow radix2 (-22) * B2R (val (q - 2)%nat)) by (apply Rmult_le_compat_l; lra).
    split.
    + exact We.
    + unfold MaxQuantity. rewrite Ed, map_length, seq_length. apply rd_nth. rewrite map_seq_nth by lia. do 2 f_equal. lia.
    + assert (0 <= 2 * a * v) by (apply Rmult_le_pos; lra). assert (0 <= (1 - a) * v - b) by nra. destruct (Rle_or_lt (B2R (val (q - 2)%nat)) 0); [|trivial].
      assert (2 * a * v + 2 * b <= 0) by nra. assert (b = 0) by lra. assert (a * v = 0) by lra. nra.
    + exists (val 0%nat). split; [rewrite Ed, map_seq_nth by lia; reflexivity|]. apply Rabs_le. nra.
Qed.
End Table.
