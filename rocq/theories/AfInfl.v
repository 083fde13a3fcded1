(** The antenna factor encoder: samples that are not counted have no influence.
    Proof file. *)
From Coq Require Import Reals Lra.
From Flocq Require Import Core.
From Verif Require Import Base BaseLemmas Floats FloatLemmas WeightProofs WeightMoreProofs TimeBlockBuffer StochasticEncoder EncSpec TimeBlockEncoders
  TbeSpec TbeLoops TbeRowRf TbeReal TbeErr TbeRowRfProofs TbeMore AfForm AfFit AfSpec AfCode AfErr AfBound AfMore.
Local Open Scope nat_scope.
Local Arguments imap : simpl never.
Local Arguments Nat.ltb : simpl never.

(** ** Values without influence *)
Definition is_inf (x : f64) : bool := match x with B754_infinity _ => true | _ => false end.
Definition is_zero (x : f64) : bool := match x with B754_zero _ => true | _ => false end.
Definition hid (v : cd) : Prop := is_finite (fst v) = false \/ is_inf (snd v) = true \/ (is_zero (fst v) = true /\ is_nan (snd v) = true).

Lemma not_counted_hid v : ~ counted v -> hid (widen v).
Proof.
  destruct v as [re im]. unfold counted, hid, widen. cbn [fst snd]. intros H. rewrite to64_finite. destruct (is_finite re) eqn:E; [|now left].
  right. left. destruct im as [s|s| |s m ex Hb]; trivial; exfalso; apply H; auto.
Qed.

Lemma hid_cmul v f : hid v -> hid (cmul v f).
Proof.
  destruct v as [re im]. unfold hid, cmul. cbn [fst snd]. intros [H|[H|(H & G)]].
  - left. now apply mul64_not_finite.
  - destruct im; try discriminate. destruct f as [s'|s'| |s' m' ex' Hb'].
    + destruct re; [right; right; split; reflexivity|left; reflexivity|left; reflexivity|right; right; split; reflexivity].
    + right. left. reflexivity.
    + left. now destruct re.
    + right. left. reflexivity.
  - destruct re; try discriminate. destruct im; try discriminate. destruct f; [right; right; split; reflexivity|left; reflexivity|left; reflexivity|right; right; split; reflexivity].
Qed.

Lemma hid_cdiv v f : hid v -> hid (cdiv v f).
Proof.
  destruct v as [re im]. unfold hid, cdiv. cbn [fst snd]. intros [H|[H|(H & G)]].
  - left. now apply div64_not_finite.
  - destruct im; try discriminate. destruct f as [s'|s'| |s' m' ex' Hb'].
    + right. left. reflexivity.
    + destruct re; [right; right; split; reflexivity|left; reflexivity|left; reflexivity|right; right; split; reflexivity].
    + left. now destruct re.
    + right. left. reflexivity.
  - destruct re; try discriminate. destruct im; try discriminate. destruct f; [left; reflexivity|right; right; split; reflexivity|left; reflexivity|right; right; split; reflexivity].
Qed.

Lemma hid_parts v : hid v -> is_finite (fst v) && is_finite (snd v) = false.
Proof.
  destruct v as [re im]. unfold hid. cbn [fst snd]. intros [->|[H|(_ & G)]]; trivial; apply Bool.andb_false_iff; right; [now destruct im|now destruct im].
Qed.
Lemma hid_include m v : hid v -> Include m v = m.
Proof. intros H. unfold Include. now rewrite hid_parts. Qed.
Lemma hid_abs_sum v : hid v -> is_finite (abs_sum v) = false.
Proof.
  intros H. apply hid_parts in H. apply Bool.andb_false_iff in H. destruct v as [re im]. unfold abs_sum. cbn [fst snd] in *. destruct H as [H|H].
  - destruct re; try discriminate; now destruct im as [[|]|[|]| |[|] ? ? ?].
  - destruct im; try discriminate; now destruct re as [[|]|[|]| |[|] ? ? ?].
Qed.
Lemma hid_add_inc f s v : hid v -> add_inc f s v = s.
Proof. intros H. unfold add_inc. now rewrite (hid_abs_sum _ (hid_cmul v f H)). Qed.
Lemma hid_max v : hid v -> is_finite (local_max v) = false \/ B2R (local_max v) = 0%R.
Proof.
  intros H. destruct (is_finite (local_max v)) eqn:E; [right|now left]. assert (C : cnt v) by exact E. pose proof (cnt_val v C) as V. rewrite V. apply cnt_iff in C.
  destruct v as [re im]. cbn [fst snd] in *. destruct C as (C1 & C2). unfold hid in H. cbn [fst snd] in H. destruct H as [H|[H|(H & G)]]; [congruence| |].
  - destruct im; try discriminate. destruct C2; discriminate.
  - unfold val. cbn [fst snd]. destruct re; try discriminate. destruct im; try discriminate. cbn [B2R]. rewrite Rabs_R0. apply Rmax_left. lra.
Qed.

Definition sim (v v' : cd) : Prop := v = v' \/ (hid v /\ hid v').
Lemma sim_cmul v v' f : sim v v' -> sim (cmul v f) (cmul v' f).
Proof. intros [->|(H & H')]; [now left|right]. split; now apply hid_cmul. Qed.
Lemma sim_sc f k v v' : sim v v' -> sim (sc f k v) (sc f k v').
Proof. intros H. induction k as [|k IH]; trivial. now apply sim_cmul. Qed.
Lemma sim_norm r v v' : sim v v' -> sim (ch_norm r v) (ch_norm r v').
Proof. unfold ch_norm. destruct (is0 r); trivial. intros [->|(H & H')]; [now left|right]. split; now apply hid_cdiv. Qed.

Lemma sim_include l l' : Forall2 sim l l' -> forall m, fold_left Include l m = fold_left Include l' m.
Proof. induction 1 as [|v v' l l' Hv _ IH]; intros m; cbn [fold_left]; trivial. destruct Hv as [->|(H & H')]; [apply IH|]. now rewrite !hid_include. Qed.
Lemma sim_inc f l l' : Forall2 sim l l' -> forall m, fold_left (add_inc f) l m = fold_left (add_inc f) l' m.
Proof. induction 1 as [|v v' l l' Hv _ IH]; intros m; cbn [fold_left]; trivial. destruct Hv as [->|(H & H')]; [apply IH|]. now rewrite !hid_add_inc. Qed.
Lemma pick_skip m c : is_finite m = true -> (0 <= B2R m)%R -> is_finite c = false \/ B2R c = 0%R -> pick m c = m.
Proof.
  intros F P H. unfold pick. destruct (is_finite c) eqn:Fc; trivial. destruct H as [H|H]; [discriminate|]. cbn [andb]. destruct (Bltb m c) eqn:E; trivial.
  apply Bltb_true in E. destruct E as (_ & _ & E). rewrite !K_finite in E by trivial. lra.
Qed.
Lemma sim_max l l' : Forall2 sim l l' -> maxf (map local_max l) = maxf (map local_max l').
Proof.
  intros H. unfold maxf. assert (G : forall m, is_finite m = true -> (0 <= B2R m)%R -> fold_left pick (map local_max l) m = fold_left pick (map local_max l') m).
  { induction H as [|v v' l l' Hv _ IH]; intros m F P; cbn [fold_left map]; trivial. destruct Hv as [->|(H & H')].
    - destruct (pick_val m (local_max v') F) as (A1 & A2 & _). apply IH; trivial. lra.
    - rewrite !pick_skip by (trivial; now apply hid_max). now apply IH. }
  apply G; [reflexivity|]. cbn. lra.
Qed.

(** ** Blocks *)
Definition rsim (r r' : drow cd) : Prop := antenna1 r = antenna1 r' /\ antenna2 r = antenna2 r' /\ Forall2 sim (visibilities r) (visibilities r').
Definition dsim (data data' : list (drow cd)) : Prop := Forall2 rsim data data'.

Lemma Forall2_nth_intro {A B} (P : A -> B -> Prop) l : forall l', length l = length l' -> (forall i a b, nth_error l i = Some a -> nth_error l' i = Some b -> P a b) -> Forall2 P l l'.
Proof.
  induction l as [|a l IH]; intros [|b l'] Hl H; try discriminate; [constructor|]. constructor; [now apply (H 0)|]. apply IH; [now injection Hl|].
  intros i x y. apply (H (S i)).
Qed.

Lemma vis_nth {A} (P : A -> A -> Prop) (l l' : list A) i : Forall2 P l l' -> 
  Forall2 P (match nth_error l i with Some v => [v] | None => [] end) (match nth_error l' i with Some v => [v] | None => [] end).
Proof. intros H. pose proof (Forall2_nth _ _ _ i H) as Q. destruct (nth_error l i), (nth_error l' i); try easy; repeat constructor; trivial. Qed.

Lemma dsim_chan i data data' : dsim data data' -> Forall2 sim (of_chan i data) (of_chan i data').
Proof. intros H. unfold of_chan. apply (Forall2_flat2 rsim _ _ _ _ _ H). intros r r' _ _ (_ & _ & Q). now apply vis_nth. Qed.

Lemma dsim_cross data data' : dsim data data' -> dsim (crosses data) (crosses data').
Proof.
  induction 1 as [|r r' data data' Hr _ IH]; cbn [crosses filter]; [constructor|]. destruct Hr as (E1 & E2 & Q).
  assert (E : is_cross r = is_cross r') by (unfold is_cross; now rewrite E1, E2). rewrite E. destruct (is_cross r'); trivial. constructor; trivial. now split.
Qed.

Section Shape.
Context (nPol nChan nAnt : nat).
Notation n := (nPol * nChan).
Notation shaped := (shaped nPol nChan nAnt).

Lemma rsim_pol pol r r' : rsim r r' -> Forall2 sim (of_pol nPol nChan pol (visibilities r)) (of_pol nPol nChan pol (visibilities r')).
Proof. intros (_ & _ & Q). unfold of_pol. apply Forall2_flat. intros ch _. now apply vis_nth. Qed.

Lemma dsim_ant pol a data data' : dsim data data' -> Forall2 sim (of_ant nPol nChan pol a data) (of_ant nPol nChan pol a data').
Proof.
  intros H. unfold of_ant. apply (Forall2_flat2 rsim _ _ _ _ _ (dsim_cross _ _ H)). intros r r' _ _ Q.
  assert (E : uses r a = uses r' a) by (unfold uses; now rewrite (proj1 Q), (proj1 (proj2 Q))). rewrite E. destruct (uses r' a =? 0); [constructor|]. now apply rsim_pol.
Qed.
Lemma dsim_pair pol k data data' : dsim data data' -> Forall2 sim (of_pair nPol nChan nAnt pol k data) (of_pair nPol nChan nAnt pol k data').
Proof.
  intros H. unfold of_pair. apply (Forall2_flat2 rsim _ _ _ _ _ (dsim_cross _ _ H)). intros r r' _ _ Q. rewrite (proj1 Q), (proj1 (proj2 Q)).
  destruct (_ =? k); [|constructor]. now apply rsim_pol.
Qed.

Lemma dsim_remap g g' data data' : dsim data data' -> (forall r r' i v v', rsim r r' -> sim v v' -> sim (g r i v) (g' r' i v')) ->
  dsim (map (remap g) data) (map (remap g') data').
Proof.
  intros H G. apply Forall2_map_both. induction H as [|r r' data data' Hr _ IH]; constructor; trivial. unfold rsim, remap. cbn [antenna1 antenna2 visibilities].
  destruct Hr as (E1 & E2 & Q). split; trivial. split; trivial. apply Forall2_nth_intro.
  - rewrite !imap_length. clear - Q. induction Q; cbn; congruence.
  - intros i v v' N N'. rewrite imap_nth in N, N'. pose proof (Forall2_nth _ _ _ i Q) as P. destruct (nth_error (visibilities r) i); [|discriminate].
    destruct (nth_error (visibilities r') i); [|discriminate]. injection N as <-. injection N' as <-. apply G; [|exact P]. now split.
Qed.

Lemma dsim_chan_max i data data' : dsim data data' -> chan_max i data = chan_max i data'.
Proof. intros H. apply sim_max, dsim_chan. now apply dsim_cross. Qed.
Lemma dsim_rms i data data' : dsim data data' -> chan_rms i data = chan_rms i data'.
Proof. intros H. unfold chan_rms. f_equal. now apply sim_include, dsim_chan. Qed.
Lemma dsim_ant_max pol a data data' : dsim data data' -> ant_max nPol nChan pol a data = ant_max nPol nChan pol a data'.
Proof. intros H. now apply sim_max, dsim_ant. Qed.
Lemma dsim_ant_inc pol L a data data' : dsim data data' -> ant_inc nPol nChan pol L a data = ant_inc nPol nChan pol L a data'.
Proof. intros H. unfold ant_inc. rewrite (dsim_ant_max pol a data data' H). now apply sim_inc, dsim_ant. Qed.

Lemma dsim_decide pol L data data' : dsim data data' -> decide nPol nChan nAnt pol L data = decide nPol nChan nAnt pol L data'.
Proof.
  intros H. unfold decide.
  rewrite (fold_left_ext (chan_choice nPol pol L data) (chan_choice nPol pol L data')).
  - rewrite (fold_left_ext (ant_choice nPol nChan pol L data) (ant_choice nPol nChan pol L data')).
    + destruct (fold_left (chan_choice nPol pol L data') _ _) as [[bestC ch] cfac]. destruct (fold_left (ant_choice nPol nChan pol L data') _ _) as [bestA a].
      now rewrite (dsim_ant_max pol a data data' H).
    + intros [best ant] a _. unfold ant_choice. now rewrite (dsim_ant_inc pol L a data data' H).
  - intros [[best ch] cfac] c _. unfold chan_choice. rewrite (dsim_chan_max _ data data' H).
    assert (E : forall f, chan_inc (c * nPol + pol) f data = chan_inc (c * nPol + pol) f data') by (intros f; apply sim_inc, dsim_chan; now apply dsim_cross).
    now rewrite E.
Qed.

Lemma dsim_app o data data' : dsim data data' -> dsim (app_data nPol o data) (app_data nPol o data').
Proof.
  intros H. apply dsim_remap; trivial. intros r r' i v v' (E1 & E2 & _) S. rewrite (hits_same nPol o r r' i E1 E2). now apply sim_sc.
Qed.

(** the list of changes *)
Fixpoint trace (fuel pol : nat) (L : f64) (data : list (drow cd)) : option (list op) :=
  match fuel with
  | O => None
  | S fuel => match decide nPol nChan nAnt pol L data with
      | None => Some []
      | Some (o, true) => option_map (cons o) (trace fuel pol L (app_data nPol o data))
      | Some (o, false) => Some [o]
      end
  end.
Fixpoint traces (fuel : nat) (L : f64) (pols : list nat) (data : list (drow cd)) : option (list op) :=
  match pols with
  | [] => Some []
  | p :: t => match trace fuel p L data with
      | Some ops => option_map (app ops) (traces fuel L t (apps nPol ops data))
      | None => None
      end
  end.

Lemma run_traced pol L fuel : forall data meta, run nPol nChan nAnt fuel pol L data meta =
  option_map (fun ops => (apps nPol ops data, metas nPol nChan nAnt ops meta)) (trace fuel pol L data).
Proof.
  induction fuel as [|fuel IH]; intros data meta; cbn [run trace]; trivial. destruct (decide nPol nChan nAnt pol L data) as [[o [|]]|]; trivial.
  rewrite IH. now destruct (trace fuel pol L (app_data nPol o data)).
Qed.
Lemma runs_traced L fuel pols : forall data meta, runs nPol nChan nAnt fuel L pols data meta =
  option_map (fun ops => (apps nPol ops data, metas nPol nChan nAnt ops meta)) (traces fuel L pols data).
Proof.
  induction pols as [|p pols IH]; intros data meta; cbn [runs traces]; trivial. rewrite run_traced. destruct (trace fuel p L data) as [ops|]; cbn [option_map]; trivial.
  rewrite IH. destruct (traces fuel L pols (apps nPol ops data)) as [ops'|]; cbn [option_map]; trivial. now rewrite apps_app, metas_app.
Qed.

Lemma dsim_trace pol L fuel : forall data data', dsim data data' -> trace fuel pol L data = trace fuel pol L data'.
Proof.
  induction fuel as [|fuel IH]; intros data data' H; cbn [trace]; trivial. rewrite (dsim_decide pol L data data' H).
  destruct (decide nPol nChan nAnt pol L data') as [[o [|]]|]; trivial. now rewrite (IH _ _ (dsim_app o _ _ H)).
Qed.
Lemma dsim_apps ops : forall data data', dsim data data' -> dsim (apps nPol ops data) (apps nPol ops data').
Proof. induction ops as [|o ops IH]; intros data data' H; trivial. apply (IH (app_data nPol o data) (app_data nPol o data')). now apply dsim_app. Qed.
Lemma dsim_traces L fuel pols : forall data data', dsim data data' -> traces fuel L pols data = traces fuel L pols data'.
Proof.
  induction pols as [|p pols IH]; intros data data' H; cbn [traces]; trivial. rewrite (dsim_trace p L fuel data data' H).
  destruct (trace fuel p L data') as [ops|]; trivial. now rewrite (IH _ _ (dsim_apps ops _ _ H)).
Qed.

(** antenna factors *)
Definition ants (data : list (drow cd)) (p : nat) : list f64 := match calculateAntennaeRMS nPol nChan p nAnt data with Ok l => l | _ => [] end.
Lemma ants_ok data p : p < nPol -> shaped data -> calculateAntennaeRMS nPol nChan p nAnt data = Ok (ants data p) /\ length (ants data p) = nAnt.
Proof. intros Hp Hs. unfold ants. destruct (antennae_ok nPol nChan nAnt p data Hp Hs) as (l & E & Ll). now rewrite E. Qed.
Lemma dsim_ants data data' p : p < nPol -> shaped data -> shaped data' -> dsim data data' -> ants data p = ants data' p.
Proof.
  intros Hp Hs Hs' H. unfold ants, calculateAntennaeRMS.
  destruct (antenna_meas_eq nPol nChan nAnt p data Hp Hs) as (ms & E & Lm & M). destruct (antenna_meas_eq nPol nChan nAnt p data' Hp Hs') as (ms' & E' & Lm' & M').
  rewrite E, E'. cbn [bind]. assert (Em : ms = ms'); [|now rewrite Em]. apply nth_error_ext. intros k. destruct (Nat.ltb_spec k (nAnt * nAnt)) as [Hk|Hk].
  - rewrite M, M' by trivial. f_equal. now apply sim_include, dsim_pair.
  - rewrite (proj2 (nth_error_None ms k)), (proj2 (nth_error_None ms' k)) by lia. reflexivity.
Qed.

Definition start (L : f64) (data : list (drow cd)) : list (drow cd) := fit1 L (data2 nPol (ants (data1 data)) (data1 data)).

(** encoding in terms of the list of changes *)
Lemma af_encode_traced fuel e L b d meta sym : MaxQuantity e = Ok L -> shaped b -> 0 < nChan -> nPol * (nChan + nAnt) <= length meta ->
  let data := map wide b in let A := ants (data1 data) in
  exists m0, length m0 = length meta /\
    (forall i, i < n -> b <> [] -> nth_error m0 i = Some (to32 (chan_rms i data))) /\ (forall i, i < n -> b = [] -> nth_error m0 i = nth_error meta i) /\
    (forall p a, p < nPol -> a < nAnt -> nth_error m0 (n + nAnt * p + a) = Some (to32 (nth a (A p) zero64))) /\
    (forall j, nPol * (nChan + nAnt) <= j -> nth_error m0 j = nth_error meta j) /\
    af_encode fuel e nPol nChan nAnt d b meta sym = match traces fuel (to64 L) (seq 0 nPol) (start (to64 L) data) with
      | Some ops => Some (do sym <- write_symbols e n d (map (remap (fin nPol (to64 L) data A ops)) data) sym;
                          Ok (metas nPol nChan nAnt ops (fit1_meta nPol nChan (to64 L) (data2 nPol A (data1 data)) m0), sym))
      | None => None
      end.
Proof.
  intros EL Hs Hc Hm data A. pose proof (wide_shaped nPol nChan nAnt b Hs) as Hd. fold data in Hd.
  destruct (af_rms_eq nPol nChan nAnt data meta Hd Hm) as (A' & m0 & HA' & E0 & L0 & C1 & C2 & C3 & C4).
  assert (Hs1 : shaped (data1 data)) by now apply remap_shaped.
  assert (EA : forall p, p < nPol -> A' p = A p).
  { intros p Hp. destruct (ants_ok (data1 data) p Hp Hs1) as (H1 & _). destruct (HA' p Hp) as (H2 & _). rewrite H1 in H2. now injection H2. }
  assert (ED : data2 nPol A' (data1 data) = data2 nPol A (data1 data)).
  { unfold data2. apply remap_ext. intros r i v I Nv. f_equal. f_equal. apply EA. apply nth_lt in Nv. rewrite (proj1 Hs1 r I) in Nv. now apply stride_of in Nv. }
  rewrite ED in E0. exists m0. split; trivial. split; [|split; [|split; [|split; [trivial|]]]].
  - intros i Hi Nb. apply C1; trivial. unfold data. now destruct b.
  - intros i Hi ->. now apply C2.
  - intros p a Hp Ha. rewrite C3 by trivial. now rewrite EA.
  - unfold af_encode. rewrite EL. cbn [bind]. change (ConvertVector widen b) with data. rewrite E0. cbn [bind].
    assert (Hs2 : shaped (data2 nPol A (data1 data))) by now apply remap_shaped.
    rewrite fit_eq by (trivial; lia). rewrite runs_traced. fold (start (to64 L) data). unfold start. fold A.
    destruct (traces fuel (to64 L) (seq 0 nPol) (fit1 (to64 L) (data2 nPol A (data1 data)))) as [ops|]; cbn [option_map]; trivial. now rewrite fin_data.
Qed.

(** two blocks *)
Lemma same_counted_dsim b b' : same_counted b b' -> dsim (map wide b) (map wide b').
Proof.
  intros H. apply Forall2_map_both. unfold same_counted in H. induction H as [|r r' b b' (E1 & E2 & Q) _ IH]; constructor; trivial.
  split; trivial. split; trivial. cbn [visibilities wide]. apply Forall2_map_both. clear - Q. induction Q as [|v v' l l' Hv _ IH]; constructor; trivial.
  destruct Hv as [->|(A & B)]; [now left|right]. split; now apply not_counted_hid.
Qed.
Lemma same_counted_shaped b b' : same_counted b b' -> shaped b -> shaped b'.
Proof.
  intros S (R & A).
  assert (Q : forall r', In r' b' -> exists r, In r b /\ antenna1 r = antenna1 r' /\ antenna2 r = antenna2 r' /\ length (visibilities r') = length (visibilities r)).
  { intros row' I. apply In_nth_error in I. destruct I as (r & N'). pose proof (Forall2_nth _ _ _ r S) as Q. rewrite N' in Q.
    destruct (nth_error b r) as [row|] eqn:N; [|easy]. destruct Q as (E1 & E2 & Q). exists row. split; [eapply nth_error_In; eauto|]. apply Forall2_len in Q. auto. }
  split; intros r' I; destruct (Q r' I) as (r & I' & E1 & E2 & El); [rewrite El; now apply R|]. rewrite <- E1, <- E2. now apply A.
Qed.

Lemma af_influence fuel e d b b' meta sym L : well_formed e -> MaxQuantity e = Ok L -> is_finite L = true -> (0 < B2R L)%R ->
  rows_of n b -> antennas_below nAnt b -> same_counted b b' -> 0 < nChan -> nChan + nAnt < fuel ->
  af_MetaDataCount (length b) nPol nChan nAnt <= length meta -> SymbolCount (length b) nPol nChan <= length sym ->
  exists m s s', af_encode fuel e nPol nChan nAnt d b meta sym = Some (Ok (m, s)) /\ af_encode fuel e nPol nChan nAnt d b' meta sym = Some (Ok (m, s')) /\
    forall r row row' i v im, nth_error b r = Some row -> nth_error b' r = Some row' -> nth_error (visibilities row) i = Some v -> nth_error (visibilities row') i = Some v ->
      nth_error s (r * (n * 2) + i * 2 + b2n im) = nth_error s' (r * (n * 2) + i * 2 + b2n im).
Proof.
  intros W EL FL PL R An S Hc Hf Hm Hsym. pose proof (same_len b b' S) as Lb. pose proof (conj R An : shaped b) as Hs. pose proof (same_counted_shaped b b' S Hs) as Hs'.
  pose proof (same_counted_dsim b b' S) as D. set (data := map wide b) in *. set (data' := map wide b') in *.
  assert (Hd : shaped data) by now apply wide_shaped. assert (Hd' : shaped data') by now apply wide_shaped.
  destruct (af_encode_traced fuel e L b d meta sym EL Hs Hc Hm) as (m0 & L0 & C1 & C2 & C3 & C4 & E).
  destruct (af_encode_traced fuel e L b' d meta sym EL Hs' Hc Hm) as (m0' & L0' & C1' & C2' & C3' & C4' & E'). fold data in E, C1, C3. fold data' in E', C1', C3'.
  assert (Rms : forall i, chan_rms i data = chan_rms i data') by (intros i; now apply dsim_rms).
  assert (D1 : dsim (data1 data) (data1 data')) by (apply dsim_remap; trivial; intros r r' i v v' _ Sv; rewrite Rms; now apply sim_norm).
  assert (Hs1 : shaped (data1 data)) by now apply remap_shaped. assert (Hs1' : shaped (data1 data')) by now apply remap_shaped.
  assert (EA : forall p, p < nPol -> ants (data1 data) p = ants (data1 data') p) by (intros p Hp; now apply dsim_ants).
  assert (ED : data2 nPol (ants (data1 data)) (data1 data') = data2 nPol (ants (data1 data')) (data1 data')).
  { unfold data2. apply remap_ext. intros r i v I Nv. f_equal. f_equal. apply EA. apply nth_lt in Nv. rewrite (proj1 Hs1' r I) in Nv. now apply stride_of in Nv. }
  assert (D2 : dsim (data2 nPol (ants (data1 data)) (data1 data)) (data2 nPol (ants (data1 data')) (data1 data'))).
  { rewrite <- ED. apply dsim_remap; trivial. intros r r' i v v' (E1 & E2 & _) Sv. unfold ant_norm. rewrite E1, E2. now apply sim_cmul. }
  assert (Cm : forall i, chan_max i (data2 nPol (ants (data1 data)) (data1 data)) = chan_max i (data2 nPol (ants (data1 data')) (data1 data'))) by (intros i; now apply dsim_chan_max).
  assert (D3 : dsim (start (to64 L) data) (start (to64 L) data')) by (apply dsim_remap; trivial; intros r r' i v v' _ Sv; rewrite Cm; now apply sim_cmul).
  assert (Em0 : m0 = m0').
  { apply nth_error_ext. intros k. destruct (Nat.lt_ge_cases k n) as [Q|Q]; [|destruct (Nat.lt_ge_cases k (nPol * (nChan + nAnt))) as [Q2|Q2]].
    - destruct b as [|row b0].
      + destruct b'; [|discriminate]. now rewrite C2, C2'.
      + destruct b'; [discriminate|]. rewrite C1, C1' by easy. now rewrite Rms.
    - destruct (slots nPol nChan nAnt k Q2 Q) as (p & a & Hp & Ha & ->). rewrite C3, C3' by trivial. now rewrite EA.
    - now rewrite C4, C4'. }
  assert (Ef : fit1_meta nPol nChan (to64 L) (data2 nPol (ants (data1 data)) (data1 data)) m0 = fit1_meta nPol nChan (to64 L) (data2 nPol (ants (data1 data')) (data1 data')) m0').
  { rewrite Em0. unfold fit1_meta. apply nth_error_ext. intros k. rewrite !imap_nth. destruct (nth_error m0' k); cbn [option_map]; trivial. now rewrite Cm. }
  rewrite (dsim_traces (to64 L) fuel (seq 0 nPol) _ _ D3) in E.
  destruct (af_terminates e nPol nChan nAnt d b meta sym L W EL FL PL R An Hc Hm Hsym) as (x & Ex). specialize (Ex fuel Hf). rewrite E in Ex.
  destruct (traces fuel (to64 L) (seq 0 nPol) (start (to64 L) data')) as [ops|]; [|discriminate]. clear Ex.
  assert (WS : forall b0 data0 A0, data0 = map wide b0 -> length b0 = length b -> shaped data0 -> exists s, write_symbols e n d (map (remap (fin nPol (to64 L) data0 A0 ops)) data0) sym = Ok s /\
    forall r row, nth_error b0 r = Some row -> holds e d n (r * (n * 2)) (remap (fin nPol (to64 L) data0 A0 ops) (wide row)) n s).
  { intros b0 data0 A0 E0 Hl Hd0. destruct (write_symbols_ok e n d (map (remap (fin nPol (to64 L) data0 A0 ops)) data0) sym W) as (s & Es & _ & Hh & _).
    - apply remap_shaped with (nAnt := nAnt). exact Hd0.
    - rewrite map_length, E0, map_length, Hl. unfold SymbolCount in Hsym. lia.
    - exists s. split; trivial. intros r row N. apply Hh. rewrite E0 at 2. now rewrite !nth_error_map, N. }
  destruct (WS b data (ants (data1 data)) eq_refl eq_refl Hd) as (s & Es & Hh). destruct (WS b' data' (ants (data1 data')) eq_refl (eq_sym Lb) Hd') as (s' & Es' & Hh').
  rewrite Es in E. rewrite Es' in E'. cbn [bind] in E, E'. rewrite Ef in E. eexists. exists s, s'. split; [exact E|]. split; [exact E'|].
  intros r row row' i v im N N' Nv Nv'. pose proof (Forall2_nth _ _ _ r S) as Q. rewrite N, N' in Q. destruct Q as (Q1 & Q2 & _).
  pose proof (nth_lt _ _ _ Nv) as Hi. rewrite R in Hi by (eapply nth_error_In; eauto). destruct (stride_of nPol nChan i Hi) as (Hp & _ & _).
  assert (F : forall g (row0 : drow cf), nth_error (visibilities row0) i = Some v -> nth_error (visibilities (remap g (wide row0))) i = Some (g (wide row0) i (widen v))).
  { intros g row0 N0. cbn [visibilities remap wide]. now rewrite imap_nth, nth_error_map, N0. }
  destruct (symbol_at _ _ _ _ _ _ i _ im (Hh r row N) Hi (F _ row Nv)) as (z & Z1 & Z2).
  destruct (symbol_at _ _ _ _ _ _ i _ im (Hh' r row' N') Hi (F _ row' Nv')) as (z' & Z1' & Z2').
  assert (EF : fin nPol (to64 L) data (ants (data1 data)) ops (wide row) i (widen v) = fin nPol (to64 L) data' (ants (data1 data')) ops (wide row') i (widen v)).
  { unfold fin, cfit. rewrite Cm, Rms, (EA _ Hp). unfold ant_norm. cbn [antenna1 antenna2 wide]. rewrite Q1, Q2. unfold sample_ops. apply fold_left_ext.
    intros v0 o _. f_equal. now apply hits_same. }
  rewrite EF in Z1. congruence.
Qed.
End Shape.
