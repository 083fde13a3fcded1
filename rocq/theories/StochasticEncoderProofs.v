From Coq Require Import Reals Lra Lia ZifyBool ZifyNat.
From Verif Require Import Base Floats FloatLemmas Dictionary DictSpec DictionaryProofs StochasticEncoder EncSpec.
Ltac Zify.zify_post_hook ::= Z.div_mod_to_equations.

Lemma max32_finite : is_finite max32 = true.
Proof. reflexivity. Qed.

Lemma B2R_max32 : B2R max32 = (bpow radix2 128 - bpow radix2 104)%R.
Proof.
  unfold max32, Bmax_float. rewrite B2R_SF2B. cbn -[bpow]. unfold F2R. cbn -[bpow].
  change (IZR 16777215) with (IZR (2 ^ 24 - 1)). rewrite minus_IZR. 
  replace (bpow radix2 128) with (IZR (2 ^ 24) * bpow radix2 104)%R.
  - ring.
  - change 128%Z with (24 + 104)%Z. rewrite bpow_plus. reflexivity.
Qed.

Lemma finite_le_max (v : f32) : is_finite v = true -> Bleb v max32 = true.
Proof.
  intros H. apply Bleb_K; [now apply finite_nan|reflexivity|].
  rewrite !K_finite by (trivial; reflexivity). rewrite B2R_max32.
  pose proof (abs_B2R_le_emax_minus_prec 24 128 p32 v) as A.
  apply Rabs_le_inv in A. cbn in A. cbn. lra.
Qed.

Section WF.
Variable e : encoder.
Hypothesis W : well_formed e.
Notation n := (length (dec e)).

Lemma len_enc : length (enc e) = n.
Proof. apply W. Qed.

Lemma dec_no_nan : no_nan (dec e).
Proof. eapply Forall_impl; [|apply W]. intros a Ha. now apply finite_nan. Qed.

Lemma dec_sorted : sorted (dec e).
Proof. apply strictly_sorted_sorted; [apply W|apply dec_no_nan]. Qed.

Lemma dec_nth i : (i < n)%nat -> exists x, nth_error (dec e) i = Some x /\ is_finite x = true /\ rd (dec e) i = Ok x.
Proof.
  intros H. destruct (rd_ok (dec e) i H) as (x & Hx & Er). exists x. repeat split; trivial.
  apply nth_error_In in Hx. pose proof (wf_dec_finite e W) as F. unfold all_finite in F. rewrite Forall_forall in F. auto.
Qed.

(** C08 *)
Lemma encode_finite v : is_finite v = true ->
  exists s, Encode e v = Ok s /\ (s < n)%nat /\ is_lower_bound (enc e) v s.
Proof.
  intros Hv. unfold Encode. rewrite Hv.
  pose proof (wf_two e W) as H2. pose proof len_enc as HL.
  destruct (lower_bound_correct (enc e) v) as (r & -> & Hr); [lia|apply W|].
  exists r. cbn [bind]. split; [reflexivity|]. split; trivial.
  destruct Hr as (R1 & R2 & R3).
  destruct (Nat.lt_ge_cases r n) as [L|L]; trivial.
  assert (Bltb max32 v = true).
  { apply (R2 (length (enc e) - 1)%nat); [lia|apply W]. }
  pose proof (finite_le_max v Hv) as M.
  apply (Bltb_Bleb_trans max32 v max32) in H; trivial. rewrite Bltb_irrefl in H. discriminate.
Qed.

Lemma encode_interval v : is_finite v = true ->
  exists s b, Encode e v = Ok s /\ (s < QuantizationCount e - 1)%nat /\
    nth_error (enc e) s = Some b /\ Bleb v b = true /\
    (forall i c, (i < s)%nat -> nth_error (enc e) i = Some c -> Bltb c v = true).
Proof.
  intros Hv. destruct (encode_finite v Hv) as (s & E & Hs & (R1 & R2 & R3)).
  pose proof len_enc as HL.
  destruct (rd_ok (enc e) s) as (b & Hb & _); [lia|].
  exists s, b. repeat split; trivial.
  - unfold QuantizationCount. lia.
  - apply Bleb_K.
    + now apply finite_nan.
    + pose proof (wf_enc_sorted e W s s b b ltac:(lia) Hb Hb) as G. apply Bleb_true in G. tauto.
    + apply Bltb_false.
      * now apply R3.
      * pose proof (wf_enc_sorted e W s s b b ltac:(lia) Hb Hb) as G. apply Bleb_true in G. tauto.
      * now apply finite_nan.
Qed.

Lemma encode_mono v v' s s' : is_finite v = true -> is_finite v' = true -> Bleb v v' = true ->
  Encode e v = Ok s -> Encode e v' = Ok s' -> (s <= s')%nat.
Proof.
  intros Hv Hv' Hle E E'.
  destruct (encode_finite v Hv) as (r & Er & Hr & (A1 & A2 & A3)).
  destruct (encode_finite v' Hv') as (r' & Er' & Hr' & (B1 & B2 & B3)).
  rewrite E in Er. injection Er as <-. rewrite E' in Er'. injection Er' as <-.
  destruct (Nat.le_gt_cases s s') as [L|L]; trivial.
  pose proof len_enc as HL.
  destruct (rd_ok (enc e) s') as (b & Hb & _); [lia|].
  pose proof (A2 _ _ L Hb) as C1. pose proof (B3 _ Hb) as C2.
  rewrite (Bltb_Bleb_trans _ _ _ C1 Hle) in C2. discriminate.
Qed.

(** C09 *)
Lemma encode_reserved v s : Encode e v = Ok s -> (s = QuantizationCount e - 1)%nat <-> is_finite v = false.
Proof.
  intros E. destruct (is_finite v) eqn:F.
  - destruct (encode_finite v F) as (r & Er & Hr & _). rewrite E in Er. injection Er as <-.
    unfold QuantizationCount. split; [lia|discriminate].
  - unfold Encode in E. rewrite F in E. injection E as <-. tauto.
Qed.

Lemma encode_nonfinite v : is_finite v = false -> Encode e v = Ok (QuantizationCount e - 1)%nat.
Proof. intros F. unfold Encode. now rewrite F. Qed.

Lemma dither_cases v d : is_finite v = true ->
  exists r s, is_lower_bound (dec e) v r /\ EncodeWithDithering e v d = Ok s /\ (s < n)%nat /\
    ((r = 0 /\ s = 0)%nat \/ (r = n /\ s = n - 1)%nat \/
     (exists lv rv, (0 < r < n)%nat /\ nth_error (dec e) (r - 1) = Some lv /\ nth_error (dec e) r = Some rv /\
      is_finite lv = true /\ is_finite rv = true /\
      Bltb lv v = true /\ Bleb v rv = true /\
      s = if dither_right v lv rv d then r else (r - 1)%nat)).
Proof.
  intros Hv. pose proof (wf_two e W) as H2.
  unfold EncodeWithDithering. rewrite Hv.
  destruct (lower_bound_correct (dec e) v) as (r & -> & Hr); [lia|apply dec_sorted|].
  cbn [bind]. exists r. unfold symbol.
  destruct (Nat.eqb_spec r 0) as [->|N0].
  { exists 0%nat. repeat split; try apply Hr; try lia. }
  destruct (Nat.eqb_spec r n) as [->|N1].
  { exists (n - 1)%nat. repeat split; try apply Hr; try lia. }
  destruct Hr as (R1 & R2 & R3).
  destruct (dec_nth r ltac:(lia)) as (rv & Hrv & Frv & ->). cbn [bind].
  destruct (dec_nth (r - 1) ltac:(lia)) as (lv & Hlv & Flv & ->). cbn [bind].
  eexists. split; [repeat split; trivial|]. split; [reflexivity|].
  split; [destruct dither_right; lia|].
  right. right. exists lv, rv. repeat split; trivial; try lia.
  - apply (R2 (r - 1)%nat); trivial. lia.
  - apply Bleb_K; try now apply finite_nan. apply Bltb_false; try now apply finite_nan. now apply R3.
Qed.

Lemma dither_reserved v d s : EncodeWithDithering e v d = Ok s ->
  (s = QuantizationCount e - 1)%nat <-> is_finite v = false.
Proof.
  intros E. destruct (is_finite v) eqn:F.
  - destruct (dither_cases v d F) as (r & t & _ & Er & Hr & _). rewrite E in Er. injection Er as <-.
    unfold QuantizationCount. split; [lia|discriminate].
  - unfold EncodeWithDithering in E. rewrite F in E. injection E as <-. rewrite len_enc.
    unfold QuantizationCount. split; trivial; lia.
Qed.

Lemma dither_total v d : exists s, EncodeWithDithering e v d = Ok s /\ (s < QuantizationCount e)%nat.
Proof.
  unfold QuantizationCount. destruct (is_finite v) eqn:F.
  - destruct (dither_cases v d F) as (r & t & _ & Er & Hr & _). exists t. split; trivial. lia.
  - exists (length (enc e)). unfold EncodeWithDithering. rewrite F. split; trivial. rewrite len_enc. lia.
Qed.

Lemma decode_finite s : (s < n)%nat -> exists x, Decode e s = Ok x /\ is_finite x = true /\ nth_error (dec e) s = Some x.
Proof.
  intros H. destruct (dec_nth s H) as (x & Hx & Fx & _). exists x. repeat split; trivial.
  unfold Decode, rd. rewrite nth_error_app1 by trivial. now rewrite Hx.
Qed.

Lemma decode_nth s x : nth_error (dec e) s = Some x -> Decode e s = Ok x.
Proof.
  intros H. unfold Decode, rd. rewrite nth_error_app1.
  - now rewrite H.
  - apply nth_error_Some. congruence.
Qed.

Lemma decode_reserved : Decode e (QuantizationCount e - 1) = Ok nan32.
Proof.
  unfold Decode, rd, QuantizationCount. replace (n + 1 - 1)%nat with n by lia.
  rewrite nth_error_app2 by lia. rewrite Nat.sub_diag.
  destruct (wf_slack e W) as (rest & ->). reflexivity.
Qed.

Lemma decode_iff s : (s < QuantizationCount e)%nat ->
  exists x, Decode e s = Ok x /\ (is_finite x = false <-> s = (QuantizationCount e - 1)%nat).
Proof.
  intros H. destruct (Nat.lt_ge_cases s n) as [L|L].
  - destruct (decode_finite s L) as (x & E & F & _). exists x. split; trivial.
    rewrite F. unfold QuantizationCount. split; [discriminate|lia].
  - assert (s = QuantizationCount e - 1)%nat as -> by (unfold QuantizationCount in *; lia).
    exists nan32. split; [apply decode_reserved|]. cbn. tauto.
Qed.

(** C10: bracketing *)
Lemma dither_bracket v d : is_finite v = true ->
  exists s x, EncodeWithDithering e v d = Ok s /\ nth_error (dec e) s = Some x /\ Decode e s = Ok x /\
  ( (s = 0%nat /\ Bleb v x = true)
  \/ (s = (n - 1)%nat /\ Bltb x v = true)
  \/ (exists y, nth_error (dec e) (s + 1) = Some y /\ Bltb x v = true /\ Bleb v y = true)
  \/ (exists y, (0 < s)%nat /\ nth_error (dec e) (s - 1) = Some y /\ Bltb y v = true /\ Bleb v x = true)).
Proof.
  intros Hv. destruct (dither_cases v d Hv) as (r & s & (R1 & R2 & R3) & E & Hs & C).
  destruct (decode_finite s Hs) as (x & Ex & Fx & Hx).
  exists s, x. split; trivial. split; trivial. split; trivial.
  destruct C as [(-> & ->)|[(-> & ->)|(lv & rv & Hr & Hl & Hrv & Fl & Fr & L1 & L2 & ->)]].
  - left. split; trivial. apply Bleb_K; try now apply finite_nan. apply Bltb_false; try now apply finite_nan. now apply R3.
  - right. left. split; trivial. apply (R2 (n - 1)%nat); trivial; lia.
  - destruct dither_right.
    + right. right. right. exists lv. rewrite Hrv in Hx. injection Hx as <-. repeat split; trivial. lia.
    + right. right. left. exists rv. rewrite Hl in Hx. injection Hx as <-.
      replace (r - 1 + 1)%nat with r by lia. auto.
Qed.

(** C14 *)
Lemma right_boundary s : (s < n)%nat -> exists b, RightBoundary e s = Ok b /\ nth_error (enc e) s = Some b /\
  forall v t, is_finite v = true -> Encode e v = Ok t -> ((t <= s)%nat <-> Bleb v b = true).
Proof.
  intros Hs. pose proof len_enc as HL. unfold RightBoundary. rewrite HL.
  replace (s =? n)%nat with false by (symmetry; apply Nat.eqb_neq; lia).
  destruct (rd_ok (enc e) s) as (b & Hb & ->); [lia|]. exists b. split; trivial. split; trivial.
  intros v t Hv Et.
  destruct (encode_finite v Hv) as (r & Er & Hr & (A1 & A2 & A3)). rewrite Et in Er. injection Er as <-.
  pose proof (wf_enc_sorted e W s s b b ltac:(lia) Hb Hb) as Gb. apply Bleb_true in Gb. destruct Gb as (Nb & _ & _).
  split.
  - intros L. destruct (rd_ok (enc e) t) as (c & Hc & _); [lia|].
    apply Bleb_trans with c.
    + pose proof (wf_enc_sorted e W t t c c ltac:(lia) Hc Hc) as G. apply Bleb_true in G. destruct G as (Nc & _ & _).
      apply Bleb_K; trivial; try now apply finite_nan. apply Bltb_false; trivial; try now apply finite_nan. now apply A3.
    + now apply (wf_enc_sorted e W t s).
  - intros L. destruct (Nat.le_gt_cases t s) as [G|G]; trivial.
    pose proof (A2 _ _ G Hb) as C. apply (Bltb_Bleb_trans b v b) in C; trivial. rewrite Bltb_irrefl in C. discriminate.
Qed.
End WF.


Lemma encode_reserved_total e v : well_formed e ->
  exists s, Encode e v = Ok s /\ (s < QuantizationCount e)%nat /\
    ((s = QuantizationCount e - 1)%nat <-> is_finite v = false).
Proof.
  intros W. assert (E : exists s, Encode e v = Ok s /\ (s < QuantizationCount e)%nat).
  { destruct (is_finite v) eqn:F.
    - destruct (encode_finite e W v F) as (s & E & L & _). exists s. split; trivial. unfold QuantizationCount. lia.
    - exists (QuantizationCount e - 1)%nat. split; [now apply encode_nonfinite|]. unfold QuantizationCount. lia. }
  destruct E as (s & E & L). exists s. split; trivial. split; trivial. now apply encode_reserved.
Qed.

Lemma dither_reserved_total e v d : well_formed e ->
  exists s, EncodeWithDithering e v d = Ok s /\ (s < QuantizationCount e)%nat /\
    ((s = QuantizationCount e - 1)%nat <-> is_finite v = false).
Proof.
  intros W. destruct (dither_total e W v d) as (s & E & L). exists s. split; trivial. split; trivial.
  now apply (dither_reserved e W v d).
Qed.

Lemma decode_reserved_total e s : well_formed e -> (s < QuantizationCount e)%nat ->
  exists x, Decode e s = Ok x /\ (is_finite x = false <-> s = (QuantizationCount e - 1)%nat) /\
    (s = (QuantizationCount e - 1)%nat -> is_nan x = true).
Proof.
  intros W L. destruct (decode_iff e W s L) as (x & D & H). exists x. split; trivial. split; trivial.
  intros ->. rewrite decode_reserved in D by trivial. injection D as <-. reflexivity.
Qed.

Lemma copy_decodes e s : well_formed e -> (s < QuantizationCount e - 1)%nat ->
  Decode (copy_encoder e) s = Decode e s.
Proof.
  intros W L. unfold QuantizationCount in L. destruct (decode_finite e W s ltac:(lia)) as (x & D & _ & H).
  rewrite D. unfold Decode, copy_encoder. cbn. rewrite app_nil_r. unfold rd. now rewrite H.
Qed.

Lemma copy_reserved_ub e : well_formed e -> Decode e (QuantizationCount e - 1) = Ok nan32 /\
    Decode (copy_encoder e) (QuantizationCount e - 1) = UB.
Proof.
  intros W. split; [now apply decode_reserved|]. unfold Decode, copy_encoder, QuantizationCount. cbn.
  rewrite app_nil_r. unfold rd. replace (nth_error (dec e) (length (dec e) + 1 - 1)) with (@None f32); trivial.
  symmetry. apply nth_error_None. lia.
Qed.

Lemma right_boundary_sep e s : well_formed e -> (s < QuantizationCount e - 1)%nat ->
  exists b, RightBoundary e s = Ok b /\
  forall v t, is_finite v = true -> Encode e v = Ok t -> ((t <= s)%nat <-> Bleb v b = true).
Proof.
  intros W L. unfold QuantizationCount in L. destruct (right_boundary e W s ltac:(lia)) as (b & R & _ & H). now exists b.
Qed.
