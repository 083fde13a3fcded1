(** Row and RF normalization: non-finite samples, zero rows and channels, buffer
    sizes.  Proof file. *)
From Coq Require Import Reals Lra Psatz.
From Flocq Require Import Core.
From Verif Require Import Base BaseLemmas Floats FloatLemmas WeightProofs WeightMoreProofs TimeBlockBuffer DictSpec StochasticEncoder EncSpec StochasticEncoderProofs
  DitherProofs TimeBlockEncoders TbeSpec TbeLoops TbeRowRf TbeReal TbeErr TbeRowRfProofs.
Local Open Scope R_scope.

(** ** Encoded and decoded components *)
Lemma enc_nonfinite e d k x s : well_formed e -> is_finite x = false -> enc_value e d k x = Ok s -> s = (QuantizationCount e - 1)%nat.
Proof.
  intros W F E. assert (F' : is_finite (to32 x) = false) by now apply conv_not_finite. destruct d as [f|]; cbn in E.
  - destruct (dither_reserved_total e (to32 x) (f k) W) as (s' & E' & _ & H). rewrite E in E'. injection E' as <-. now apply H.
  - destruct (encode_reserved_total e (to32 x) W) as (s' & E' & _ & H). rewrite E in E'. injection E' as <-. now apply H.
Qed.

Lemma to32_finite_inv (x : f64) : is_finite (to32 x) = true -> is_finite x = true.
Proof. intros F. destruct (is_finite x) eqn:E; trivial. apply (conv_not_finite (p' := 24) (e' := 128)) in E. unfold to32 in F. congruence. Qed.

Lemma dec_nonfinite e s q f : well_formed e -> (s < QuantizationCount e)%nat -> s = (QuantizationCount e - 1)%nat -> Decode e s = Ok q ->
  is_nan (to32 (mul64 (to64 q) f)) = true.
Proof.
  intros W Ls Es D. destruct (decode_reserved_total e s W Ls) as (x & D' & _ & H). rewrite D in D'. injection D' as <-. specialize (H Es).
  destruct q; try discriminate. now destruct f.
Qed.

Lemma enc_finite e d k x s q : well_formed e -> is_finite (to32 x) = true -> enc_value e d k x = Ok s -> (s < QuantizationCount e)%nat -> Decode e s = Ok q -> is_finite q = true.
Proof.
  intros W F E Ls D. destruct (decode_reserved_total e s W Ls) as (x' & D' & H & _). rewrite D in D'. injection D' as <-.
  destruct (is_finite q) eqn:Fq; trivial. pose proof (proj1 H eq_refl) as Fs. destruct d as [f|]; cbn in E.
  - destruct (dither_reserved_total e (to32 x) (f k) W) as (s' & E' & _ & H'). rewrite E in E'. injection E' as <-. apply H' in Fs. congruence.
  - destruct (encode_reserved_total e (to32 x) W) as (s' & E' & _ & H'). rewrite E in E'. injection E' as <-. apply H' in Fs. congruence.
Qed.

Lemma to32_zero (x : f64) : is_finite x = true -> B2R x = 0 -> is_finite (to32 x) = true /\ B2R (to32 x) = 0.
Proof.
  intros F E. destruct (to32_val x F) as (A & B & _); [rewrite E, Rabs_R0; apply bpow_ge_0|]. split; trivial. rewrite B, E. unfold rn32, rne. apply round_0. apply valid_rnd_N.
Qed.

Lemma decode_zero (q : f32) (f : f64) : is_finite q = true -> is_finite f = true -> B2R q = 0 \/ B2R f = 0 ->
  is_finite (to32 (mul64 (to64 q) f)) = true /\ B2R (to32 (mul64 (to64 q) f)) = 0.
Proof.
  intros Fq Ff [Z|Z]; destruct (to64_val q Fq) as (Fq' & Eq).
  - destruct (mul_zero (to64 q) f Fq' Ff) as (A & B); [lra|]. now apply to32_zero.
  - destruct (mul_zero_r (to64 q) f Fq' Ff Z) as (A & B). now apply to32_zero.
Qed.

Lemma mul_f32_finite (x y : f32) : is_finite x = true -> is_finite y = true -> is_finite (mul64 (to64 x) (to64 y)) = true.
Proof.
  intros Fx Fy. destruct (to64_val x Fx) as (Fx' & Ex). destruct (to64_val y Fy) as (Fy' & Ey).
  destruct (Req_dec (B2R x) 0) as [Z|Nx]; [apply mul_zero; trivial; lra|]. destruct (Req_dec (B2R y) 0) as [Z|Ny]; [apply mul_zero_r; trivial; lra|].
  destruct (mul_mag (-149) 128 (-149) 128 (to64 x) (to64 y) (f32_mag x Fx Nx) (f32_mag y Fy Ny)) as (A & _); [lia|lia|]. apply A.
Qed.

(** ** Non-finite components *)
Lemma row_nonfinite e nPol nChan d b meta sym L r row : well_formed e -> MaxQuantity e = Ok L -> rows_of (nPol * nChan) b ->
  (length b <= length meta)%nat -> (SymbolCount (length b) nPol nChan <= length sym)%nat -> nth_error b r = Some row ->
  exists out, row_roundtrip e nPol nChan d b meta sym r = Ok out /\
    forall i v im, nth_error (visibilities row) i = Some v -> is_finite (part im v) = false ->
    exists w, nth_error out i = Some w /\ is_nan (part im w) = true.
Proof.
  intros W EL R Hm Hs N. destruct (row_roundtrip_form e W d nPol nChan b meta sym L r row R EL Hm Hs N) as (out & E & _ & H).
  exists out. split; trivial. intros i v im Nv F. destruct (H i v im Nv) as (s & q & w & Es & Hs' & D & Nw & Pw). exists w. split; trivial. rewrite Pw.
  apply (dec_nonfinite e s); trivial. eapply enc_nonfinite; [trivial| |exact Es]. apply mul64_not_finite. now apply conv_not_finite.
Qed.

Lemma rf_nonfinite e nPol nChan d b meta sym L r row : well_formed e -> MaxQuantity e = Ok L -> rows_of (nPol * nChan) b ->
  (rf_MetaDataCount (length b) nPol nChan 0 <= length meta)%nat -> (SymbolCount (length b) nPol nChan <= length sym)%nat -> nth_error b r = Some row ->
  exists out, rf_roundtrip e nPol nChan d b meta sym r = Ok out /\
    forall i v im, nth_error (visibilities row) i = Some v -> is_finite (part im v) = false ->
    exists w, nth_error out i = Some w /\ is_nan (part im w) = true.
Proof.
  intros W EL R Hm Hs N. destruct (rf_roundtrip_form e W d nPol nChan b meta sym L r row R EL Hm Hs N) as (out & E & _ & H).
  exists out. split; trivial. intros i v im Nv F. destruct (H i v im Nv) as (s & q & w & Es & Hs' & D & Nw & Pw). exists w. split; trivial. rewrite Pw.
  apply (dec_nonfinite e s); trivial. eapply enc_nonfinite; [trivial| |exact Es]. apply mul64_not_finite, mul64_not_finite. now apply conv_not_finite.
Qed.

(** ** Samples that are not counted have no influence *)
Definition same_fin (c c' : f64) : Prop := c = c' \/ (is_finite c = false /\ is_finite c' = false).

Lemma maxf_same l l' : Forall2 same_fin l l' -> maxf l = maxf l'.
Proof.
  unfold maxf. generalize zero64. intros z H. revert z. induction H as [|c c' l l' Hc _ IH]; intros z; cbn [fold_left]; trivial.
  assert (E : pick z c = pick z c'); [|now rewrite E]. destruct Hc as [->|(A & B)]; trivial. unfold pick. now rewrite A, B.
Qed.

Lemma component_same (v v' : cf) : v = v' \/ (~ counted v /\ ~ counted v') -> same_fin (component (widen v)) (component (widen v')).
Proof.
  intros [->|(A & B)]; [now left|]. right. split.
  - destruct (is_finite (component (widen v))) eqn:E; trivial. now apply counted_widen in E.
  - destruct (is_finite (component (widen v'))) eqn:E; trivial. now apply counted_widen in E.
Qed.

Lemma Forall2_map_both {A B C D} (P : C -> D -> Prop) (f : A -> C) (g : B -> D) l l' : Forall2 (fun a b => P (f a) (g b)) l l' -> Forall2 P (map f l) (map g l').
Proof. induction 1; cbn; now constructor. Qed.

Lemma Forall2_nth {A B} (P : A -> B -> Prop) l l' i : Forall2 P l l' ->
  match nth_error l i, nth_error l' i with Some a, Some b => P a b | None, None => True | _, _ => False end.
Proof. intros H. revert i. induction H as [|a b l l' Hab _ IH]; intros [|i]; cbn; trivial. apply IH. Qed.

Lemma Forall2_flat {A B C} (P : B -> C -> Prop) (f : A -> list B) (g : A -> list C) l : (forall a, In a l -> Forall2 P (f a) (g a)) -> Forall2 P (flat_map f l) (flat_map g l).
Proof. induction l as [|a l IH]; intros H; cbn; [constructor|]. apply Forall2_app; [apply H; now left|]. apply IH. intros x I. apply H. now right. Qed.

Lemma Forall2_flat2 {A A' B C} (Q : A -> A' -> Prop) (P : B -> C -> Prop) (f : A -> list B) (g : A' -> list C) l l' : Forall2 Q l l' ->
  (forall a a', In a l -> In a' l' -> Q a a' -> Forall2 P (f a) (g a')) -> Forall2 P (flat_map f l) (flat_map g l').
Proof.
  induction 1 as [|a a' l l' Ha _ IH]; intros H; cbn; [constructor|]. apply Forall2_app; [apply H; trivial; now left|].
  apply IH. intros x x' I I'. apply H; now right.
Qed.

Definition hidden_same (v v' : cf) : Prop := v = v' \/ (~ counted v /\ ~ counted v').
Definition row_same (r r' : drow cf) : Prop := antenna1 r = antenna1 r' /\ antenna2 r = antenna2 r' /\ Forall2 hidden_same (visibilities r) (visibilities r').

Lemma row_M_same r r' : row_same r r' -> row_M (wide r) = row_M (wide r').
Proof.
  intros (_ & _ & H). unfold row_M, wide. cbn [visibilities]. apply maxf_same. rewrite !map_map. apply Forall2_map_both.
  induction H as [|v v' l l' Hv _ IH]; constructor; trivial. now apply component_same.
Qed.

Lemma rf_M_same nPol nChan p r r' : row_same r r' -> rf_M nPol nChan (wide r) p = rf_M nPol nChan (wide r') p.
Proof.
  intros (_ & _ & H). unfold rf_M, wide. cbn [visibilities]. apply maxf_same. apply Forall2_map_both. unfold of_pol. apply Forall2_flat. intros ch _.
  rewrite !nth_error_map. pose proof (Forall2_nth _ _ _ (ch * nPol + p)%nat H) as Q.
  destruct (nth_error (visibilities r) (ch * nPol + p)), (nth_error (visibilities r') (ch * nPol + p)); cbn; try easy; try constructor.
  - now apply component_same.
  - constructor.
Qed.

Lemma list_ext {A} (l l' : list A) : length l = length l' -> (forall i a a', nth_error l i = Some a -> nth_error l' i = Some a' -> a = a') -> l = l'.
Proof.
  revert l'. induction l as [|x l IH]; intros [|y l'] Len H; try easy. f_equal; [apply (H 0%nat); reflexivity|]. apply IH; [now injection Len|]. intros i a a'. apply (H (S i)).
Qed.

Lemma same_len b b' : same_counted b b' -> length b = length b'.
Proof. intros H. now apply Forall2_len in H. Qed.

(** position of the symbol of component [im] of sample [i] of row [r] *)
Lemma symbol_at (e : encoder) d n r row sym i v im : holds e d n (r * (n * 2)) row n sym -> (i < n)%nat -> nth_error (visibilities row) i = Some v ->
  exists s, enc_value e d (r * (n * 2) + i * 2 + b2n im) (part im v) = Ok s /\ nth_error sym (r * (n * 2) + i * 2 + b2n im) = Some s.
Proof.
  intros H Hi N. destruct (H i v Hi N) as (s & s' & A & B & C & D). destruct im; cbn [part b2n]; [exists s'|exists s]; rewrite ?Nat.add_0_r; auto.
Qed.

Lemma row_influence e nPol nChan d b b' meta sym L : well_formed e -> MaxQuantity e = Ok L -> rows_of (nPol * nChan) b -> same_counted b b' ->
  (length b <= length meta)%nat -> (SymbolCount (length b) nPol nChan <= length sym)%nat ->
  exists m s s', row_encode e nPol nChan d b meta sym = Ok (m, s) /\ row_encode e nPol nChan d b' meta sym = Ok (m, s') /\
    forall r row row' i v im, nth_error b r = Some row -> nth_error b' r = Some row' -> nth_error (visibilities row) i = Some v -> nth_error (visibilities row') i = Some v ->
      nth_error s (r * (nPol * nChan * 2) + i * 2 + b2n im) = nth_error s' (r * (nPol * nChan * 2) + i * 2 + b2n im).
Proof.
  intros W EL R S Hm Hs. pose proof (same_len b b' S) as Lb.
  assert (R' : rows_of (nPol * nChan) b').
  { intros row' I. apply In_nth_error in I. destruct I as (r & N'). pose proof (Forall2_nth _ _ _ r S) as Q. rewrite N' in Q.
    destruct (nth_error b r) as [row|] eqn:N; [|easy]. destruct Q as (_ & _ & Q). apply Forall2_len in Q. rewrite Q. apply R. eapply nth_error_In; eauto. }
  destruct (row_encode_form e nPol nChan d b meta sym L W R EL Hm Hs) as (m & s & E & Lm & Ls & H & Um & Us).
  destruct (row_encode_form e nPol nChan d b' meta sym L W R' EL) as (m' & s' & E' & Lm' & Ls' & H' & Um' & Us'); [lia|now rewrite <- Lb|].
  assert (Emm : m = m').
  { apply list_ext; [lia|]. intros k x x' N N'. destruct (Nat.lt_ge_cases k (length b)) as [Hk|Hk].
    - destruct (nth_error b k) as [row|] eqn:Nb; [|apply nth_error_None in Nb; lia]. pose proof (Forall2_nth _ _ _ k S) as Q. rewrite Nb in Q.
      destruct (nth_error b' k) as [row'|] eqn:Nb'; [|easy]. destruct (H k row Nb) as (A & _). destruct (H' k row' Nb') as (A' & _).
      rewrite (row_M_same row row' Q) in A. congruence.
    - rewrite Um in N by lia. rewrite Um' in N' by lia. congruence. }
  subst m'. exists m, s, s'. split; trivial. split; trivial. intros r row row' i v im Nb Nb' Nv Nv'.
  pose proof (Forall2_nth _ _ _ r S) as Q. rewrite Nb, Nb' in Q. destruct (H r row Nb) as (_ & Hh). destruct (H' r row' Nb') as (_ & Hh').
  pose proof (nth_lt _ _ _ Nv) as Hi. rewrite R in Hi by (eapply nth_error_In; eauto).
  destruct (symbol_at _ _ _ _ _ _ i (cmul (widen v) (row_factor (to64 L) (row_M (wide row)))) im Hh Hi) as (x & X1 & X2); [cbn [visibilities row_scaled wide]; now rewrite !nth_error_map, Nv|].
  destruct (symbol_at _ _ _ _ _ _ i (cmul (widen v) (row_factor (to64 L) (row_M (wide row')))) im Hh' Hi) as (x' & X1' & X2'); [cbn [visibilities row_scaled wide]; now rewrite !nth_error_map, Nv'|].
  rewrite (row_M_same row row' Q) in X1. congruence.
Qed.

Section RFMore.
Variable e : encoder.
Variable L : f32.
Hypothesis V : levels e L.
Variables nPol nChan : nat.
Notation n := (nPol * nChan)%nat.
Notation y1 := (y1 L nPol nChan).

Lemma rf_C_same b b' i : rows_of n b -> rows_of n b' -> same_counted b b' -> (i < n)%nat ->
  rf_C (map (rf_row1 nPol nChan (to64 L) nPol) (map wide b)) i = rf_C (map (rf_row1 nPol nChan (to64 L) nPol) (map wide b')) i.
Proof.
  intros R R' S Hi. destruct (stride_of nPol nChan i Hi) as (Hp & _ & _). unfold rf_C. apply maxf_same. apply Forall2_map_both. unfold of_chan.
  rewrite !map_map. rewrite !flat_map_concat_map, !map_map, <- !flat_map_concat_map.
  apply (Forall2_flat2 row_same); [exact S|]. intros r r' I I' Q. cbn [visibilities rf_row1 wide]. rewrite !imap_nth, !nth_error_map.
  pose proof (proj2 (proj2 Q)) as QV. pose proof (Forall2_nth _ _ _ i QV) as Qi.
  destruct (nth_error (visibilities r) i) as [v|] eqn:N, (nth_error (visibilities r') i) as [v'|] eqn:N'; cbn [option_map]; try easy.
  rewrite (proj2 (Nat.ltb_lt _ _) Hp). constructor; [|constructor].
  change (same_fin (component (y1 r i v)) (component (y1 r' i v'))). destruct Qi as [<-|(A & A')].
  - left. unfold TbeRowRfProofs.y1. now rewrite (rf_M_same nPol nChan _ r r' Q).
  - right. split.
    + destruct (is_finite (component (y1 r i v))) eqn:E; trivial. apply (y1_counted e L V) in E; trivial; [easy|now apply R].
    + destruct (is_finite (component (y1 r' i v'))) eqn:E; trivial. apply (y1_counted e L V) in E; trivial; [easy|now apply R'].
Qed.

Lemma rf_influence d b b' meta sym : rows_of n b -> same_counted b b' ->
  (rf_MetaDataCount (length b) nPol nChan 0 <= length meta)%nat -> (SymbolCount (length b) nPol nChan <= length sym)%nat ->
  exists m s s', rf_encode e nPol nChan d b meta sym = Ok (m, s) /\ rf_encode e nPol nChan d b' meta sym = Ok (m, s') /\
    forall r row row' i v im, nth_error b r = Some row -> nth_error b' r = Some row' -> nth_error (visibilities row) i = Some v -> nth_error (visibilities row') i = Some v ->
      nth_error s (r * (n * 2) + i * 2 + b2n im) = nth_error s' (r * (n * 2) + i * 2 + b2n im).
Proof.
  intros R S Hm Hs. pose proof (same_len b b' S) as Lb. pose proof (lv_wf e L V) as W. pose proof (lv_max e L V) as EL.
  assert (R' : rows_of n b').
  { intros row' I. apply In_nth_error in I. destruct I as (r & N'). pose proof (Forall2_nth _ _ _ r S) as Q. rewrite N' in Q.
    destruct (nth_error b r) as [row|] eqn:N; [|easy]. destruct Q as (_ & _ & Q). apply Forall2_len in Q. rewrite Q. apply R. eapply nth_error_In; eauto. }
  destruct (rf_encode_form e nPol nChan d b meta sym L W R EL Hm Hs) as (m & s & E & Lm & Ls & HC & H & Um & Us).
  destruct (rf_encode_form e nPol nChan d b' meta sym L W R' EL) as (m' & s' & E' & Lm' & Ls' & HC' & H' & Um' & Us'); [now rewrite <- Lb|now rewrite <- Lb|].
  assert (Emm : m = m').
  { apply list_ext; [lia|]. intros k x x' N N'. destruct (Nat.lt_ge_cases k n) as [Hk|Hk].
    - rewrite HC in N by trivial. rewrite HC' in N' by trivial. rewrite (rf_C_same b b' k) in N by trivial. congruence.
    - unfold rf_MetaDataCount in *. destruct (Nat.lt_ge_cases k (nPol * (nChan + length b))) as [Hk2|Hk2].
      + assert (Hp : (0 < nPol)%nat) by (destruct nPol; [cbn in *; lia|lia]).
        set (j := (k - n)%nat). set (r := (j / nPol)%nat). set (p := (j mod nPol)%nat).
        assert (Ej : j = (nPol * r + p)%nat) by (apply Nat.div_mod; lia). assert (Hpp : (p < nPol)%nat) by (apply Nat.mod_upper_bound; lia).
        assert (Ek : k = (n + r * nPol + p)%nat) by nia. assert (Hr : (r < length b)%nat) by nia.
        destruct (nth_error b r) as [row|] eqn:Nb; [|apply nth_error_None in Nb; lia]. pose proof (Forall2_nth _ _ _ r S) as Q. rewrite Nb in Q.
        destruct (nth_error b' r) as [row'|] eqn:Nb'; [|easy]. destruct (H r row Nb) as (A & _). destruct (H' r row' Nb') as (A' & _).
        rewrite Ek, A in N by trivial. rewrite Ek, A' in N' by trivial. rewrite (rf_M_same nPol nChan p row row' Q) in N. congruence.
      + rewrite Um in N by lia. rewrite Um' in N' by lia. congruence. }
  subst m'. exists m, s, s'. split; trivial. split; trivial. intros r row row' i v im Nb Nb' Nv Nv'.
  pose proof (Forall2_nth _ _ _ r S) as Q. rewrite Nb, Nb' in Q. destruct (H r row Nb) as (_ & Hh). destruct (H' r row' Nb') as (_ & Hh').
  pose proof (nth_lt _ _ _ Nv) as Hi. rewrite R in Hi by (eapply nth_error_In; eauto). destruct (stride_of nPol nChan i Hi) as (Hp & _ & _).
  assert (F : forall b0 row0, nth_error (visibilities row0) i = Some v -> nth_error (visibilities (rf_y nPol nChan (to64 L) (map wide b0) (wide row0))) i =
    Some (cmul (cmul (widen v) (row_factor (to64 L) (rf_M nPol nChan (wide row0) (i mod nPol)))) (channel_factor (to64 L) (rf_C (map (rf_row1 nPol nChan (to64 L) nPol) (map wide b0)) i)))).
  { intros b0 row0 N0. cbn [visibilities rf_y rf_row2 rf_row1 wide]. rewrite !imap_nth, nth_error_map, N0. cbn [option_map].
    rewrite (proj2 (Nat.ltb_lt i n) Hi). now rewrite (proj2 (Nat.ltb_lt _ _) Hp). }
  destruct (symbol_at _ _ _ _ _ _ i _ im Hh Hi (F b row Nv)) as (x & X1 & X2).
  destruct (symbol_at _ _ _ _ _ _ i _ im Hh' Hi (F b' row' Nv')) as (x' & X1' & X2').
  rewrite (rf_M_same nPol nChan _ row row' Q), (rf_C_same b b' i R R' S Hi) in X1. congruence.
Qed.

(** ** Zero rows and channels *)
Lemma ratios_exist i b : rows_of n b -> (i < n)%nat -> exists rho, largest (ratios nPol i b) rho.
Proof.
  intros R Hi. destruct (stride_of nPol nChan i Hi) as (Hp & _ & _). induction b as [|row b IH].
  - exists 0. split; [lra|]. split; [|now left]. intros x (r & v & im & M & I & _). easy.
  - destruct IH as (rho & A & B & C); [intros r I; apply R; now right|].
    assert (Lr : length (visibilities row) = n) by (apply R; now left).
    destruct (pol_largest nPol nChan row (i mod nPol) Lr Hp) as (_ & HM & _). set (M := B2R (rf_M nPol nChan (wide row) (i mod nPol))) in *.
    assert (U : forall M', largest (pol_mags nPol (i mod nPol) row) M' -> M' = M) by (intros M' HM'; symmetry; now apply pol_largest_eq).
    destruct (nth_error (visibilities row) i) as [v|] eqn:N; [|apply nth_error_None in N; lia].
    destruct (is_finite (component (widen v))) eqn:Fc.
    + apply counted_widen in Fc. set (a := Rabs (B2R (part false v)) / M). set (c := Rabs (B2R (part true v)) / M).
      assert (Ia : ratios nPol i (row :: b) a) by (exists row, v, false, M; split; [now left|]; split; [exact N|]; split; [exact Fc|]; split; [exact HM|reflexivity]).
      assert (Ic : ratios nPol i (row :: b) c) by (exists row, v, true, M; split; [now left|]; split; [exact N|]; split; [exact Fc|]; split; [exact HM|reflexivity]).
      assert (Ib : rho = 0 \/ ratios nPol i (row :: b) rho) by (destruct C as [->|(r & v' & im & M' & I & Q)]; [now left|right; exists r, v', im, M'; split; [now right|exact Q]]).
      assert (Up : forall x, ratios nPol i (row :: b) x -> x = a \/ x = c \/ x <= rho).
      { intros x (r & v' & im & M' & [<-|I] & N' & Cv & HM' & ->).
        - rewrite N in N'. injection N' as <-. rewrite (U _ HM'). destruct im; auto.
        - right. right. apply B. exists r, v', im, M'. split; [exact I|]. split; [exact N'|]. split; [exact Cv|]. split; [exact HM'|reflexivity]. }
      exists (Rmax rho (Rmax a c)). pose proof (Rmax_l rho (Rmax a c)). pose proof (Rmax_r rho (Rmax a c)). pose proof (Rmax_l a c). pose proof (Rmax_r a c).
      split; [lra|]. split.
      * intros x Hx. destruct (Up x Hx) as [->|[->|Q]]; lra.
      * unfold Rmax at 1 3. destruct (Rle_dec rho (Rmax a c)); [|trivial]. right. unfold Rmax. now destruct (Rle_dec a c).
    + exists rho. split; trivial. split.
      * intros x (r & v' & im & M' & [<-|I] & N' & Cv & HM' & ->).
        -- rewrite N in N'. injection N' as <-. apply counted_widen in Cv. congruence.
        -- apply B. exists r, v', im, M'. split; [exact I|]. split; [exact N'|]. split; [exact Cv|]. split; [exact HM'|reflexivity].
      * destruct C as [->|(r & v' & im & M' & I & Q)]; [now left|right; exists r, v', im, M'; split; [now right|exact Q]].
Qed.

Lemma scale_exists rho : exists kappa, scale_of rho kappa.
Proof. destruct (Req_dec rho 0) as [Z|N]; [exists 1; now right|exists rho; now left]. Qed.

Lemma rf_zero_row d b meta sym r row : rows_of n b ->
  (rf_MetaDataCount (length b) nPol nChan 0 <= length meta)%nat -> (SymbolCount (length b) nPol nChan <= length sym)%nat -> nth_error b r = Some row ->
  exists m s out, rf_encode e nPol nChan d b meta sym = Ok (m, s) /\ rf_roundtrip e nPol nChan d b meta sym r = Ok out /\
    forall p, (p < nPol)%nat -> largest (pol_mags nPol p row) 0 ->
    (exists f, nth_error m (n + r * nPol + p) = Some f /\ is_finite f = true /\ B2R f = 0) /\
    forall i v im, (i mod nPol = p)%nat -> nth_error (visibilities row) i = Some v -> counted v -> is_finite (part im v) = true ->
    exists w, nth_error out i = Some w /\ is_finite (part im w) = true /\ B2R (part im w) = 0.
Proof.
  intros R Hm Hs N. pose proof (lv_wf e L V) as W. pose proof (lv_max e L V) as EL. destruct (L_mag e L V) as (ML & ELv). pose proof (lv_pos e L V) as PL.
  destruct (rf_encode_form e nPol nChan d b meta sym L W R EL Hm Hs) as (m & s & E & _ & _ & _ & H & _).
  destruct (rf_roundtrip_form e W d nPol nChan b meta sym L r row R EL Hm Hs N) as (out & Eo & _ & HO).
  exists m, s, out. split; trivial. split; trivial. intros p Hp HM. assert (Lr : length (visibilities row) = n) by (apply R; eapply nth_error_In; eauto).
  assert (Z : is_finite (rf_meta (to64 L) (rf_M nPol nChan (wide row) p)) = true /\ B2R (rf_meta (to64 L) (rf_M nPol nChan (wide row) p)) = 0).
  { unfold rf_meta. rewrite (is0_false _ _ _ ML). destruct (pol_largest nPol nChan row p Lr Hp) as (Fm & _ & _).
    destruct (div_zero (rf_M nPol nChan (wide row) p) (to64 L) Fm) as (A & B); [apply ML|now apply pol_largest_eq|lra|]. now apply to32_zero. }
  split.
  - destruct (H r row N) as (Hf & _). exists (rf_meta (to64 L) (rf_M nPol nChan (wide row) p)). split; [now apply Hf|trivial].
  - intros i v im Ei Nv Cv Fv. destruct (HO i v im Nv) as (s0 & q & w & Es & Hs' & D & Nw & Pw). exists w. split; trivial. rewrite Pw. subst p.
    pose proof (nth_lt _ _ _ Nv) as Hi. rewrite Lr in Hi. pose proof (nth_error_In _ _ N) as I.
    destruct (ratios_exist i b R Hi) as (rho & HR). destruct (scale_exists rho) as (kappa & HK).
    destruct (rf_scaled e L V nPol nChan b row i v im rho kappa 0 R I Nv Hi Cv Fv HR HK HM) as (Fy & By & _).
    destruct (channel_scale e L V nPol nChan b i rho kappa R Hi HR HK) as (_ & _ & _ & _ & F2 & _).
    apply decode_zero.
    + eapply enc_finite; [exact W| |exact Es|exact Hs'|exact D].
      assert (Ey : part im (y1 row i v) = mul64 (to64 (part im v)) (row_factor (to64 L) (rf_M nPol nChan (wide row) (i mod nPol)))) by (unfold TbeRowRfProofs.y1; now rewrite part_cmul, part_widen).
      rewrite <- Ey. apply to32_level with (L := L); trivial. now apply levels_finite with e.
    + destruct (to64_val _ F2) as (A & _). destruct (to64_val _ (proj1 Z)) as (B & C). rewrite (proj2 Z) in C. now destruct (mul_zero_r _ _ A B C).
    + right. destruct (to64_val _ F2) as (A & _). destruct (to64_val _ (proj1 Z)) as (B & C). rewrite (proj2 Z) in C. now destruct (mul_zero_r _ _ A B C).
Qed.

Lemma dither_zero k x y d : nth_error (dec e) (S k) = Some x -> B2R x = 0 -> (forall y, nth_error (dec e) k = Some y -> B2R x - B2R y <= bpow radix2 96) ->
  (0 <= d < 2 ^ 31 - 64)%Z -> is_finite y = true -> B2R y = 0 -> EncodeWithDithering e y d = Ok (S k).
Proof.
  intros N Zx G Hd Fy Zy. pose proof (lv_wf e L V) as W. pose proof (level_preserved e k x W N G d ltac:(lia)) as E. rewrite (proj2 (Z.ltb_lt d (2 ^ 31 - 64))) in E by lia.
  destruct (dither_reserved_total e y d W) as (s & Es & _). rewrite Es. f_equal.
  assert (Fx : is_finite x = true) by (apply (proj1 (Forall_forall _ _) (wf_dec_finite e W)); eapply nth_error_In; eauto).
  assert (A : Bleb x y = true) by (rewrite Bleb_K by (try apply finite_nan; trivial); rewrite !K_finite by trivial; lra).
  assert (B : Bleb y x = true) by (rewrite Bleb_K by (try apply finite_nan; trivial); rewrite !K_finite by trivial; lra).
  apply Nat.le_antisymm; [exact (dither_mono_value e y x d s (S k) W Fy Fx B ltac:(lia) Es E)|exact (dither_mono_value e x y d (S k) s W Fx Fy A ltac:(lia) E Es)].
Qed.

Lemma rf_zero_channel g b meta sym i k z : rows_of n b -> (i < n)%nat ->
  (rf_MetaDataCount (length b) nPol nChan 0 <= length meta)%nat -> (SymbolCount (length b) nPol nChan <= length sym)%nat ->
  largest (ratios nPol i b) 0 ->
  exists m s, rf_encode e nPol nChan (Some g) b meta sym = Ok (m, s) /\
    (exists f, nth_error m i = Some f /\ is_finite f = true /\ B2R f = 1) /\
    (nth_error (dec e) (S k) = Some z -> B2R z = 0 -> (forall y, nth_error (dec e) k = Some y -> B2R z - B2R y <= bpow radix2 96) ->
     (forall j, (0 <= g j < 2 ^ 31 - 64)%Z) ->
     forall r row v im M, nth_error b r = Some row -> nth_error (visibilities row) i = Some v -> counted v -> is_finite (part im v) = true ->
       largest (pol_mags nPol (i mod nPol) row) M -> M <= bpow radix2 127 * B2R L ->
       exists out w, rf_roundtrip e nPol nChan (Some g) b meta sym r = Ok out /\ nth_error out i = Some w /\ is_finite (part im w) = true /\ B2R (part im w) = 0).
Proof.
  intros R Hi Hm Hs HR. pose proof (lv_wf e L V) as W. pose proof (lv_max e L V) as EL. destruct (L_mag e L V) as (ML & ELv). pose proof (lv_pos e L V) as PL.
  destruct (rf_encode_form e nPol nChan (Some g) b meta sym L W R EL Hm Hs) as (m & s & E & _ & _ & HC & H & _).
  exists m, s. split; trivial. destruct (stride_of nPol nChan i Hi) as (Hp & _ & _).
  destruct (channel_largest e L V nPol nChan b i 0 R Hi HR) as (Fc & (t & Ht & Ec) & _). set (c := rf_C (map (rf_row1 nPol nChan (to64 L) nPol) (map wide b)) i) in *.
  assert (Zc : B2R c = 0) by (rewrite Ec; ring). destruct one64_val as (F1 & E1).
  assert (Ef : channel_factor (to64 L) c = one64) by (unfold channel_factor; rewrite (proj2 (is0_val _ Fc) Zc); now rewrite Bool.orb_true_r).
  assert (E11 : is_finite (div64 one64 one64) = true /\ B2R (div64 one64 one64) = 1).
  { assert (Q : op_ok (div64 one64 one64) (B2R one64 / B2R one64)) by (apply div_ok; trivial; lra).
    assert (E0 : B2R one64 / B2R one64 = bpow radix2 0) by (rewrite E1; cbn; field). rewrite E0 in Q.
    destruct (op_ok_finite _ _ Q) as (A & B).
    - rewrite rne_bpow by (cbn; lia). rewrite Rabs_pos_eq by apply bpow_ge_0. apply bpow_lt. lia.
    - rewrite B, rne_bpow by (cbn; lia). now split. }
  assert (S1 : is_finite (to32 (div64 one64 one64)) = true /\ B2R (to32 (div64 one64 one64)) = 1).
  { destruct E11 as (A & B). destruct (to32_val _ A) as (C & D & _); [rewrite B, Rabs_R1; change 1 with (bpow radix2 0); apply bpow_le; lia|]. split; trivial.
    rewrite D, B. change 1 with (bpow radix2 0). apply rne_bpow. lia. }
  split; [exists (to32 (div64 one64 one64)); split; [rewrite HC by trivial; fold c; now rewrite Ef|trivial]|].
  intros Nz Zz G Hg r row v im M N Nv Cv Fv HM B2.
  destruct (rf_roundtrip_form e W (Some g) nPol nChan b meta sym L r row R EL Hm Hs N) as (out & Eo & _ & HO).
  destruct (HO i v im Nv) as (s0 & q & w & Es & Hs' & D & Nw & Pw). exists out, w. split; trivial. split; trivial. rewrite Pw. fold c in Es |- *. rewrite Ef in *.
  pose proof (nth_error_In _ _ N) as I. assert (Lr : length (visibilities row) = n) by now apply R.
  (* the sample is zero *)
  assert (Zx : B2R (part im v) = 0).
  { destruct (Req_dec (B2R (part im v)) 0) as [|Q]; trivial. exfalso. apply Rabs_pos_lt in Q.
    assert (Hx : Rabs (B2R (part im v)) <= M) by (apply HM; exists i, v, im; repeat split; trivial; apply Cv).
    assert (Rabs (B2R (part im v)) / M <= 0) by (apply HR; exists row, v, im, M; split; [exact I|]; split; [exact Nv|]; split; [exact Cv|]; split; [exact HM|reflexivity]).
    assert (0 < Rabs (B2R (part im v)) / M) by (apply Rdiv_lt_0_compat; lra). lra. }
  destruct (rowf_nz e L V nPol nChan row (i mod nPol) Lr Hp) as (Ff & _). destruct (to64_val _ Fv) as (Fx & Ex). rewrite Zx in Ex.
  destruct (mul_zero _ _ Fx Ff Ex) as (A1 & A2). destruct (mul_zero _ _ A1 F1 A2) as (A3 & A4). destruct (to32_zero _ A3 A4) as (A5 & A6).
  cbn [enc_value] in Es. rewrite (dither_zero k z _ _ Nz Zz G (Hg _) A5 A6) in Es. injection Es as <-.
  assert (Dz : q = z).
  { unfold Decode, rd in D. rewrite nth_error_app1 in D by (eapply nth_lt; eauto). rewrite Nz in D. now injection D as <-. }
  assert (Fq : is_finite q = true) by (subst q; apply (proj1 (Forall_forall _ _) (wf_dec_finite e W)); eapply nth_error_In; eauto).
  destruct (pol_largest nPol nChan row (i mod nPol) Lr Hp) as (Fm & _ & MM). pose proof (pol_largest_eq nPol nChan row (i mod nPol) M Lr Hp HM) as Em. rewrite Em in MM.
  destruct (row_stored e L V _ M Fm Em (proj1 HM) MM B2) as (F3 & _). unfold rf_meta. rewrite (is0_false _ _ _ ML).
  apply decode_zero; [trivial| |left; subst q; trivial].
  apply mul_f32_finite; [apply S1|trivial].
Qed.
End RFMore.

(** ** Row: zero rows and metadata *)
Lemma row_zero e nPol nChan d b meta sym L r row : levels e L -> rows_of (nPol * nChan) b ->
  (length b <= length meta)%nat -> (SymbolCount (length b) nPol nChan <= length sym)%nat -> nth_error b r = Some row -> largest (row_mags row) 0 ->
  exists m s out f, row_encode e nPol nChan d b meta sym = Ok (m, s) /\ row_roundtrip e nPol nChan d b meta sym r = Ok out /\
    nth_error m r = Some f /\ is_finite f = true /\ B2R f = 0 /\
    forall i v im, nth_error (visibilities row) i = Some v -> is_finite (part im v) = true ->
    exists w, nth_error out i = Some w /\ is_finite (part im w) = true /\ B2R (part im w) = 0.
Proof.
  intros V R Hm Hs N HM. pose proof (lv_wf e L V) as W. pose proof (lv_max e L V) as EL. destruct (L_mag e L V) as (ML & ELv). pose proof (lv_pos e L V) as PL.
  destruct (row_encode_form e nPol nChan d b meta sym L W R EL Hm Hs) as (m & s & E & _ & _ & H & _).
  destruct (row_roundtrip_form e W d nPol nChan b meta sym L r row R EL Hm Hs N) as (out & Eo & _ & HO).
  destruct (row_largest row 0 HM) as (Fm & Em & _). set (M := row_M (wide row)) in *.
  assert (Z : is_finite (to32 (div64 M (to64 L))) = true /\ B2R (to32 (div64 M (to64 L))) = 0).
  { destruct (div_zero M (to64 L) Fm) as (A & B); [apply ML|trivial|lra|]. now apply to32_zero. }
  exists m, s, out, (to32 (div64 M (to64 L))). split; trivial. split; trivial. destruct (H r row N) as (Nf & _). split; [exact Nf|]. split; [apply Z|]. split; [apply Z|].
  intros i v im Nv Fv. destruct (HO i v im Nv) as (s0 & q & w & Es & Hs' & D & Nw & Pw). exists w. split; trivial. rewrite Pw.
  destruct (to64_val _ (proj1 Z)) as (B & C). rewrite (proj2 Z) in C. apply decode_zero; [|trivial|now right].
  eapply enc_finite; [exact W| |exact Es|exact Hs'|exact D]. unfold row_factor. rewrite (proj2 (is0_val _ Fm) Em).
  destruct (to64_val _ Fv) as (Fx & Ex). destruct one64_val as (F1 & E1).
  assert (O : op_ok (mul64 (to64 (part im v)) one64) (B2R (to64 (part im v) : f64) * B2R one64)) by now apply mult_ok.
  rewrite E1, Rmult_1_r, Ex in O.
  assert (G : rne (p := 53) (e := 1024) (B2R (part im v)) = B2R (part im v)).
  { rewrite <- Ex. apply round_generic; [apply valid_rnd_N|]. apply generic_format_B2R. }
  destruct (op_ok_finite _ _ O) as (A & A2).
  { rewrite G. pose proof (B2R_bounds (part im v)) as Q. apply Rle_lt_trans with (bpow radix2 128); [apply Rabs_le; lra|]. apply bpow_lt. lia. }
  rewrite G in A2. assert (O2 : op_ok (to32 (mul64 (to64 (part im v)) one64)) (B2R (mul64 (to64 (part im v)) one64))) by now apply conv_ok.
  rewrite A2 in O2.
  assert (G2 : rne (p := 24) (e := 128) (B2R (part im v)) = B2R (part im v)) by (apply round_generic; [apply valid_rnd_N|]; apply generic_format_B2R).
  destruct (op_ok_finite _ _ O2) as (A3 & _); trivial. rewrite G2. pose proof (B2R_bounds (part im v)) as Q. apply Rabs_lt. lra.
Qed.

Lemma row_metadata e nPol nChan d b meta sym L : levels e L -> rows_of (nPol * nChan) b ->
  (length b <= length meta)%nat -> (SymbolCount (length b) nPol nChan <= length sym)%nat ->
  exists m s, row_encode e nPol nChan d b meta sym = Ok (m, s) /\
    forall r row M, nth_error b r = Some row -> largest (row_mags row) M -> M <= bpow radix2 127 * B2R L ->
    exists f, nth_error m r = Some f /\ is_finite f = true /\ Rabs (B2R f - M / B2R L) <= (u32 + bpow radix2 (-47)) * (M / B2R L) + eta.
Proof.
  intros V R Hm Hs. pose proof (lv_wf e L V) as W. pose proof (lv_max e L V) as EL.
  destruct (row_encode_form e nPol nChan d b meta sym L W R EL Hm Hs) as (m & s & E & _ & _ & H & _). exists m, s. split; trivial.
  intros r row M N HM B. destruct (H r row N) as (Nf & _). destruct (row_largest row M HM) as (Fm & Em & P0 & MM).
  destruct (row_stored e L V _ M Fm Em P0 MM B) as (A & C). eauto.
Qed.

(** ** Buffers *)
Lemma holds_at e d n r row sym k s0 : well_formed e -> holds e d n (r * (n * 2)) row n sym -> length (visibilities row) = n -> (r * (n * 2) <= k < (r + 1) * (n * 2))%nat ->
  nth_error sym k = Some s0 -> exists i v im, nth_error (visibilities row) i = Some v /\ k = (r * (n * 2) + i * 2 + b2n im)%nat /\ enc_value e d k (part im v) = Ok s0 /\ (s0 < QuantizationCount e)%nat.
Proof.
  intros W H Lr Hk N. set (i := ((k - r * (n * 2)) / 2)%nat). set (im := ((k - r * (n * 2)) mod 2 =? 1)%nat).
  assert (Ek : k = (r * (n * 2) + i * 2 + b2n im)%nat).
  { pose proof (Nat.div_mod (k - r * (n * 2)) 2 ltac:(lia)) as Q. pose proof (Nat.mod_upper_bound (k - r * (n * 2)) 2 ltac:(lia)) as Q2. fold i in Q.
    unfold im, b2n. destruct ((k - r * (n * 2)) mod 2 =? 1)%nat eqn:E1; [apply Nat.eqb_eq in E1|apply Nat.eqb_neq in E1]; nia. }
  assert (Hi : (i < n)%nat) by (unfold b2n in Ek; destruct im; nia).
  destruct (nth_error (visibilities row) i) as [v|] eqn:Nv; [|apply nth_error_None in Nv; lia].
  destruct (symbol_at e d n r row sym i v im H Hi Nv) as (s & Es & Ns). rewrite <- Ek in Es, Ns. assert (s = s0) by congruence. subst s.
  exists i, v, im. split; trivial. split; trivial. split; trivial. destruct (enc_value_total e d k (part im v) W) as (s1 & E1 & L1). congruence.
Qed.

Lemma symbols_same e d n (b : tbb cf) (f : drow cf -> drow cd) sym sym' : well_formed e -> (forall row, In row b -> length (visibilities (f row)) = n) ->
  (forall r row, nth_error b r = Some row -> holds e d n (r * (n * 2)) (f row) n sym) -> (length b * (n * 2) <= length sym)%nat ->
  (forall r row, nth_error b r = Some row -> holds e d n (r * (n * 2)) (f row) n sym') -> (length b * (n * 2) <= length sym')%nat ->
  forall k, (k < length b * (n * 2))%nat -> nth_error sym' k = nth_error sym k /\ (forall x, nth_error sym k = Some x -> (x < QuantizationCount e)%nat).
Proof.
  intros W Lf H Ls H' Ls' k Hk. assert (Hn : (0 < n * 2)%nat) by nia. set (r := (k / (n * 2))%nat).
  assert (Hr : (r * (n * 2) <= k < (r + 1) * (n * 2))%nat).
  { pose proof (Nat.div_mod k (n * 2) ltac:(lia)) as Q. pose proof (Nat.mod_upper_bound k (n * 2) ltac:(lia)) as Q2. fold r in Q. nia. }
  assert (Hrb : (r < length b)%nat) by nia. destruct (nth_error b r) as [row|] eqn:N; [|apply nth_error_None in N; lia].
  destruct (nth_error sym k) as [s0|] eqn:E; [|apply nth_error_None in E; lia]. destruct (nth_error sym' k) as [s1|] eqn:E1; [|apply nth_error_None in E1; lia].
  assert (Lr : length (visibilities (f row)) = n) by (apply Lf; eapply nth_error_In; eauto).
  destruct (holds_at e d n r (f row) sym k s0 W (H r row N) Lr Hr E) as (i & v & im & Nv & Ek & Es & Lt).
  destruct (symbol_at e d n r (f row) sym' i v im (H' r row N) ltac:(rewrite <- Lr; eapply nth_lt; eauto) Nv) as (s2 & Es2 & Ns2). rewrite <- Ek in Es2, Ns2.
  split; [congruence|]. intros x Ex. congruence.
Qed.

Lemma row_filled e nPol nChan d b meta sym L : well_formed e -> MaxQuantity e = Ok L -> rows_of (nPol * nChan) b ->
  (row_MetaDataCount (length b) nPol nChan 0 <= length meta)%nat -> (SymbolCount (length b) nPol nChan <= length sym)%nat ->
  filled e (row_MetaDataCount (length b) nPol nChan 0) (SymbolCount (length b) nPol nChan) meta sym (row_encode e nPol nChan d b).
Proof.
  intros W EL R Hm Hs. unfold row_MetaDataCount in *. destruct (row_encode_form e nPol nChan d b meta sym L W R EL Hm Hs) as (m & s & E & Lm & Ls & H & Um & Us).
  assert (EC : SymbolCount (length b) nPol nChan = (length b * (nPol * nChan * 2))%nat) by (unfold SymbolCount; lia).
  assert (Lf : forall row, In row b -> length (visibilities (row_scaled (to64 L) (wide row))) = (nPol * nChan)%nat) by (intros row I; cbn [visibilities row_scaled wide]; rewrite !map_length; now apply R).
  exists m, s. split; trivial. split; trivial. split; trivial. split; trivial. split; trivial.
  assert (S0 : forall r row, nth_error b r = Some row -> holds e d (nPol * nChan) (r * (nPol * nChan * 2)) (row_scaled (to64 L) (wide row)) (nPol * nChan) s) by (intros r row N; apply (H r row N)).
  split.
  - intros k x Hk Nx. eapply (symbols_same e d (nPol * nChan) b (fun row => row_scaled (to64 L) (wide row)) s s W Lf S0); [lia|exact S0|lia| |exact Nx]. lia.
  - intros meta' sym' Hm' Hs'. destruct (row_encode_form e nPol nChan d b meta' sym' L W R EL Hm' Hs') as (m' & s' & E' & Lm' & Ls' & H' & _).
    exists m', s'. split; trivial. split.
    + intros k Hk. destruct (nth_error b k) as [row|] eqn:N; [|apply nth_error_None in N; lia]. rewrite (proj1 (H k row N)). apply (H' k row N).
    + intros k Hk. apply (symbols_same e d (nPol * nChan) b (fun row => row_scaled (to64 L) (wide row)) s s' W Lf S0); [lia| |lia|lia].
      intros r row N. apply (H' r row N).
Qed.

Lemma rf_filled e nPol nChan d b meta sym L : well_formed e -> MaxQuantity e = Ok L -> rows_of (nPol * nChan) b ->
  (rf_MetaDataCount (length b) nPol nChan 0 <= length meta)%nat -> (SymbolCount (length b) nPol nChan <= length sym)%nat ->
  filled e (rf_MetaDataCount (length b) nPol nChan 0) (SymbolCount (length b) nPol nChan) meta sym (rf_encode e nPol nChan d b).
Proof.
  intros W EL R Hm Hs. destruct (rf_encode_form e nPol nChan d b meta sym L W R EL Hm Hs) as (m & s & E & Lm & Ls & HC & H & Um & Us).
  assert (EC : SymbolCount (length b) nPol nChan = (length b * (nPol * nChan * 2))%nat) by (unfold SymbolCount; lia).
  set (f := fun row => rf_y nPol nChan (to64 L) (map wide b) (wide row)).
  assert (Lf : forall row, In row b -> length (visibilities (f row)) = (nPol * nChan)%nat) by (intros row I; unfold f; cbn [visibilities rf_y rf_row2 rf_row1 wide]; rewrite !imap_length, map_length; now apply R).
  exists m, s. split; trivial. split; trivial. split; trivial. split; trivial. split; trivial.
  assert (S0 : forall r row, nth_error b r = Some row -> holds e d (nPol * nChan) (r * (nPol * nChan * 2)) (f row) (nPol * nChan) s) by (intros r row N; apply (H r row N)).
  split.
  - intros k x Hk Nx. eapply (symbols_same e d (nPol * nChan) b f s s W Lf S0); [lia|exact S0|lia| |exact Nx]. lia.
  - intros meta' sym' Hm' Hs'. destruct (rf_encode_form e nPol nChan d b meta' sym' L W R EL Hm' Hs') as (m' & s' & E' & Lm' & Ls' & HC' & H' & _).
    exists m', s'. split; trivial. split.
    + intros k Hk. unfold rf_MetaDataCount in Hk. destruct (Nat.lt_ge_cases k (nPol * nChan)) as [Q|Q]; [rewrite HC by trivial; now apply HC'|].
      assert (Hp : (0 < nPol)%nat) by (destruct nPol; [cbn in *; lia|lia]).
      set (j := (k - nPol * nChan)%nat). set (r := (j / nPol)%nat). set (p := (j mod nPol)%nat).
      assert (Ej : j = (nPol * r + p)%nat) by (apply Nat.div_mod; lia). assert (Hpp : (p < nPol)%nat) by (apply Nat.mod_upper_bound; lia).
      assert (Ek : k = (nPol * nChan + r * nPol + p)%nat) by nia. assert (Hr : (r < length b)%nat) by nia.
      destruct (nth_error b r) as [row|] eqn:N; [|apply nth_error_None in N; lia]. rewrite Ek, (proj1 (H r row N) p Hpp). now apply (H' r row N).
    + intros k Hk. apply (symbols_same e d (nPol * nChan) b f s s' W Lf S0); [lia| |lia|lia]. intros r row N. apply (H' r row N).
Qed.
