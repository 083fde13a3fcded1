(** The AF encoder and decoder in functional form.  Proof file. *)
From Coq Require Import Reals Lra Psatz.
From Flocq Require Import Core.
From Verif Require Import Base BaseLemmas Floats FloatLemmas WeightProofs TimeBlockBuffer DictSpec StochasticEncoder EncSpec StochasticEncoderProofs
  TimeBlockEncoders TbeSpec TbeLoops TbeRowRf TbeReal TbeErr TbeRowRfProofs AfForm AfFit AfSpec.
Local Arguments imap : simpl never.
Local Arguments Nat.ltb : simpl never.

Section Code.
Context (nPol nChan nAnt : nat).
Notation n := (nPol * nChan).
Notation shaped := (shaped nPol nChan nAnt).

(** what the changes do to one sample and to one stored factor *)
Definition sample_ops (ops : list op) (r : drow cd) (i : nat) (v : cd) : cd := fold_left (fun v o => sc (fac o) (hits nPol o r i) v) ops v.
Definition slot_ops (ops : list op) (j : nat) (x : f32) : f32 :=
  fold_left (fun (x : f32) o => if j =? slot nPol nChan nAnt o then to32 (div64 (to64 x) (fac o)) else x) ops x.

Lemma apps_remap ops : forall g data, apps nPol ops (map (remap g) data) = map (remap (fun r i v => sample_ops ops r i (g r i v))) data.
Proof.
  induction ops as [|o ops IH]; intros g data; [reflexivity|].
  change (apps nPol ops (app_data nPol o (map (remap g) data)) = map (remap (fun r i v => sample_ops (o :: ops) r i (g r i v))) data).
  unfold app_data. rewrite remap_remap. rewrite IH. reflexivity.
Qed.

Lemma metas_nth ops : forall meta j, nth_error (metas nPol nChan nAnt ops meta) j = option_map (slot_ops ops j) (nth_error meta j).
Proof.
  induction ops as [|o ops IH]; intros meta j; cbn; [now destruct (nth_error meta j)|].
  etransitivity; [apply IH|]. unfold app_meta. rewrite imap_nth. now destruct (nth_error meta j).
Qed.
Lemma metas_length ops : forall meta, length (metas nPol nChan nAnt ops meta) = length meta.
Proof. induction ops as [|o ops IH]; intros meta; cbn; trivial. etransitivity; [apply IH|apply app_meta_length]. Qed.

Lemma slot_ops_out ops j x : (forall o, In o ops -> slot nPol nChan nAnt o < j) -> slot_ops ops j x = x.
Proof.
  revert x. induction ops as [|o ops IH]; intros x H; cbn; trivial.
  rewrite (proj2 (Nat.eqb_neq j (slot nPol nChan nAnt o))) by (specialize (H o (or_introl eq_refl)); lia).
  apply IH. intros; apply H; now right.
Qed.

(** factor of channel [i] in the first fit, the sample that is stored, and the
    stored factors *)
Section Parts.
Context (L : f64) (data : list (drow cd)) (A : nat -> list f64) (ops : list op).
Definition cfit (i : nat) : f64 := channel_factor L (chan_max i (data2 nPol A (data1 data))).
Definition fin (r : drow cd) (i : nat) (v : cd) : cd :=
  sample_ops ops r i (cmul (cmul (ch_norm (chan_rms i data) v) (ant_norm (A (i mod nPol)) r)) (cfit i)).
Definition chan_meta (i : nat) : f32 := slot_ops ops i (to32 (div64 (to64 (to32 (chan_rms i data))) (cfit i))).
Definition ant_meta (p a : nat) : f32 := slot_ops ops (n + nAnt * p + a) (to32 (nth a (A p) zero64)).

Lemma fin_data : apps nPol ops (fit1 L (data2 nPol A (data1 data))) = map (remap fin) data.
Proof.
  unfold fit1. rewrite apps_remap. unfold data2 at 2. rewrite remap_remap. unfold data1 at 2. rewrite remap_remap. reflexivity.
Qed.
End Parts.

Lemma wide_shaped (b : tbb cf) : shaped b -> shaped (map wide b).
Proof.
  intros (H1 & H2). split; intros r I; apply in_map_iff in I; destruct I as (r0 & <- & I); cbn; [rewrite map_length; now apply H1|now apply H2].
Qed.

Lemma steps_valid L ops : forall data, steps nPol nChan nAnt L ops data -> forall o, In o ops -> valid nPol nChan nAnt o.
Proof. induction ops as [|o ops IH]; intros data St x I; [easy|]. destruct St as (V & _ & St). destruct I as [<-|I]; [trivial|]. eapply IH; eauto. Qed.

Lemma L_range (L : f32) : is_finite L = true -> (0 < B2R L)%R -> is_finite (to64 L) = true /\ (0 < B2R (to64 L))%R /\
  (bpow radix2 (-150) <= B2R (to64 L) <= bpow radix2 128)%R.
Proof.
  intros F P. destruct (to64_val L F) as (F' & E). destruct (f32_mag L F) as (_ & A & B); [lra|]. rewrite Rabs_pos_eq in A, B by lra.
  split; trivial. split; [lra|]. split; [|trivial]. eapply Rle_trans; [|exact A]. apply bpow_le. lia.
Qed.

Lemma af_encode_form e L b : well_formed e -> MaxQuantity e = Ok L -> is_finite L = true -> (0 < B2R L)%R -> shaped b -> 0 < nChan ->
  let data := map wide b in
  exists A ops, (forall p, p < nPol -> calculateAntennaeRMS nPol nChan p nAnt (data1 data) = Ok (A p) /\ length (A p) = nAnt) /\
    steps nPol nChan nAnt (to64 L) ops (fit1 (to64 L) (data2 nPol A (data1 data))) /\ (forall r i, length (hitting nPol r i ops) <= 4) /\
    forall fuel d meta sym, nChan + nAnt < fuel -> nPol * (nChan + nAnt) <= length meta -> SymbolCount (length b) nPol nChan <= length sym ->
    exists meta' sym', af_encode fuel e nPol nChan nAnt d b meta sym = Some (Ok (meta', sym')) /\ length meta' = length meta /\ length sym' = length sym /\
      (b <> [] -> forall i, i < n -> nth_error meta' i = Some (chan_meta (to64 L) data A ops i)) /\
      (forall p a, p < nPol -> a < nAnt -> nth_error meta' (n + nAnt * p + a) = Some (ant_meta A ops p a)) /\
      (forall j, nPol * (nChan + nAnt) <= j -> nth_error meta' j = nth_error meta j) /\
      (forall r row, nth_error b r = Some row -> holds e d n (r * (n * 2)) (remap (fin (to64 L) data A ops) (wide row)) n sym') /\
      (forall k, SymbolCount (length b) nPol nChan <= k -> nth_error sym' k = nth_error sym k).
Proof.
  intros W EL FL PL Hs Hc data. destruct (L_range L FL PL) as (FL' & PL' & RL). pose proof (wide_shaped b Hs) as Hd. fold data in Hd.
  (* the part that does not depend on the buffers *)
  assert (X : exists A ops, (forall p, p < nPol -> calculateAntennaeRMS nPol nChan p nAnt (data1 data) = Ok (A p) /\ length (A p) = nAnt) /\
    steps nPol nChan nAnt (to64 L) ops (fit1 (to64 L) (data2 nPol A (data1 data))) /\ (forall r i, length (hitting nPol r i ops) <= 4) /\
    forall fuel meta, nChan + nAnt < fuel -> runs nPol nChan nAnt fuel (to64 L) (seq 0 nPol) (fit1 (to64 L) (data2 nPol A (data1 data))) meta =
      Some (apps nPol ops (fit1 (to64 L) (data2 nPol A (data1 data))), metas nPol nChan nAnt ops meta)).
  { pose (A := fun p => match calculateAntennaeRMS nPol nChan p nAnt (data1 data) with Ok l => l | _ => [] end).
    assert (HA : forall p, p < nPol -> calculateAntennaeRMS nPol nChan p nAnt (data1 data) = Ok (A p) /\ length (A p) = nAnt).
    { intros p Hp. unfold A. destruct (antennae_ok nPol nChan nAnt p (data1 data) Hp) as (l & E & Ll); [now apply remap_shaped|]. now rewrite E. }
    destruct (runs_trace nPol nChan nAnt (to64 L) FL' PL' RL (S (nChan + nAnt)) (seq 0 nPol)) with (data := fit1 (to64 L) (data2 nPol A (data1 data)))
      as (ops & E & St & _ & Hh).
    - intros p I. apply in_seq in I. lia.
    - apply seq_NoDup.
    - trivial.
    - lia.
    - apply remap_shaped. apply remap_shaped. now apply remap_shaped.
    - exists A, ops. split; [exact HA|]. split; [exact St|]. split; [exact Hh|]. intros fuel meta Hf. apply E. lia. }
  destruct X as (A & ops & HA & St & Hh & Er). exists A, ops. split; [trivial|]. split; [trivial|]. split; [trivial|].
  intros fuel d meta sym Hf Hm Hsym.
  destruct (af_rms_eq nPol nChan nAnt data meta Hd Hm) as (A' & m0 & HA' & E0 & L0 & C1 & _ & C3 & C4).
  assert (EA : forall p, p < nPol -> A' p = A p).
  { intros p Hp. destruct (HA p Hp) as (H1 & _). destruct (HA' p Hp) as (H2 & _). rewrite H1 in H2. now injection H2. }
  assert (ED : data2 nPol A' (data1 data) = data2 nPol A (data1 data)).
  { unfold data2. apply remap_ext. intros r i v I Nv. f_equal. f_equal. apply EA. apply nth_lt in Nv.
    assert (Hs1 : shaped (data1 data)) by now apply remap_shaped. rewrite (proj1 Hs1 r I) in Nv. now apply stride_of in Nv. }
  rewrite ED in E0. unfold af_encode. rewrite EL. cbn [bind]. change (ConvertVector widen b) with data. rewrite E0. cbn [bind].
  assert (Hs2 : shaped (data2 nPol A (data1 data))) by (apply remap_shaped; now apply remap_shaped).
  rewrite fit_eq by (trivial; lia). rewrite Er by trivial. cbn [option_map]. rewrite fin_data.
  set (m1 := metas nPol nChan nAnt ops (fit1_meta nPol nChan (to64 L) (data2 nPol A (data1 data)) m0)).
  assert (Lm1 : length m1 = length meta) by (unfold m1; rewrite metas_length; unfold fit1_meta; rewrite imap_length; trivial).
  destruct (write_symbols_ok e n d (map (remap (fin (to64 L) data A ops)) data) sym W) as (sym' & Es & Ls & Hhold & Us).
  { apply remap_shaped with (nAnt := nAnt). exact Hd. }
  { rewrite map_length. unfold data. rewrite map_length. unfold SymbolCount in Hsym. lia. }
  rewrite Es. cbn [bind]. exists m1, sym'. split; [reflexivity|]. split; [trivial|]. split; [trivial|]. split; [|split; [|split; [|split]]].
  - intros Nb i Hi. unfold m1. rewrite metas_nth. unfold fit1_meta. rewrite imap_nth. rewrite C1; trivial; [|unfold data; now destruct b].
    cbn [option_map]. rewrite (proj2 (Nat.ltb_lt i n) Hi). reflexivity.
  - intros p a Hp Ha. unfold m1. rewrite metas_nth. unfold fit1_meta. rewrite imap_nth. rewrite C3 by trivial. cbn [option_map].
    rewrite (proj2 (Nat.ltb_ge (n + nAnt * p + a) n)) by lia. rewrite EA by trivial. reflexivity.
  - intros j Hj. unfold m1. rewrite metas_nth. unfold fit1_meta. rewrite imap_nth. rewrite C4 by trivial.
    destruct (nth_error meta j) as [x|]; cbn [option_map]; trivial. rewrite (proj2 (Nat.ltb_ge j n)) by nia. f_equal. apply slot_ops_out.
    intros o I. eapply Nat.lt_le_trans; [apply slot_lt; eapply steps_valid; eauto|trivial].
  - intros r row N. apply Hhold. rewrite nth_error_map. unfold data. now rewrite nth_error_map, N.
  - intros k Hk. apply Us. rewrite map_length. unfold data. rewrite map_length. unfold SymbolCount in Hk. lia.
Qed.

(** the decoder's antenna factors *)
Lemma af_init_ok meta : nPol * (nChan + nAnt) <= length meta -> 
  exists cs as_, af_init nPol nChan meta nAnt = Ok (map to64 cs, as_) /\ length cs = n /\ (forall i, i < n -> nth_error cs i = nth_error meta i) /\
    length as_ = nAnt * nPol /\
    forall p a, p < nPol -> a < nAnt -> nth_error as_ (a * nPol + p) = option_map (fun x : f32 => to64 x) (nth_error meta (n + nAnt * p + a)).
Proof.
  intros Hm. unfold af_init. destruct (rds_ok meta 0 n) as (cs & Ec & Lc & Hcs); [nia|]. rewrite Ec. cbn [bind].
  destruct (foldM_seq (fun l p => foldM (fun l a => do x <- rd meta (n + (a + p * nAnt)); wr l (a * nPol + p) (to64 x)) (seq 0 nAnt) l)
    (fun k (l : list f64) => length l = nAnt * nPol /\ forall p a, p < k -> a < nAnt -> nth_error l (a * nPol + p) = option_map (fun x : f32 => to64 x) (nth_error meta (n + nAnt * p + a)))
    nPol (repeat zero64 (nAnt * nPol))) as (as_ & Ea & La & Ha).
  - split; [apply repeat_length|]. intros; lia.
  - intros p l Hp (Ll & Hl).
    destruct (foldM_seq (fun l a => do x <- rd meta (n + (a + p * nAnt)); wr l (a * nPol + p) (to64 x))
      (fun k (l' : list f64) => length l' = nAnt * nPol /\ (forall q a, q < p -> a < nAnt -> nth_error l' (a * nPol + q) = nth_error l (a * nPol + q)) /\
         forall a, a < k -> nth_error l' (a * nPol + p) = option_map (fun x : f32 => to64 x) (nth_error meta (n + nAnt * p + a))) nAnt l) as (l' & E' & L' & H1 & H2).
    + split; trivial. split; trivial. intros; lia.
    + intros a s Ha (Ls & S1 & S2). destruct (rd_ok meta (n + (a + p * nAnt))) as (x & Ex & Nx); [nia|]. rewrite Ex. cbn [bind].
      assert (Hlt : a * nPol + p < length s) by nia. rewrite wr_ok by trivial. eexists. split; [reflexivity|]. split; [now rewrite upd_length|]. split.
      * intros q a' Hq Ha'. rewrite upd_diff; [now apply S1|]. intros Q. assert (a = a') by nia. subst. lia.
      * intros a' Ha'. destruct (Nat.eq_dec a a') as [<-|Na].
        -- rewrite upd_same by trivial. replace (n + nAnt * p + a) with (n + (a + p * nAnt)) by lia. now rewrite Nx.
        -- rewrite upd_diff; [apply S2; lia|]. intros Q. apply Na. nia.
    + exists l'. split; [exact E'|]. split; trivial. intros q a Hq Ha. destruct (Nat.eq_dec q p) as [->|Nq]; [now apply H2|].
      rewrite H1 by lia. apply Hl; lia.
  - match goal with |- context [foldM ?F (seq 0 nPol) ?z] => assert (Q : foldM F (seq 0 nPol) z = Ok as_) by exact Ea; rewrite Q; clear Q end.
    cbn [bind]. exists cs, as_. split; [reflexivity|]. split; [trivial|]. split; [intros i Hi; now rewrite Hcs|]. split; trivial.
Qed.

Lemma af_roundtrip_form e L b : well_formed e -> MaxQuantity e = Ok L -> is_finite L = true -> (0 < B2R L)%R -> shaped b -> 0 < nChan ->
  let data := map wide b in
  exists A ops, (forall p, p < nPol -> calculateAntennaeRMS nPol nChan p nAnt (data1 data) = Ok (A p) /\ length (A p) = nAnt) /\
    steps nPol nChan nAnt (to64 L) ops (fit1 (to64 L) (data2 nPol A (data1 data))) /\ (forall r i, length (hitting nPol r i ops) <= 4) /\
    forall fuel d meta sym r row, nChan + nAnt < fuel -> nPol * (nChan + nAnt) <= length meta -> SymbolCount (length b) nPol nChan <= length sym ->
    nth_error b r = Some row ->
    exists meta' sym' out, af_encode fuel e nPol nChan nAnt d b meta sym = Some (Ok (meta', sym')) /\
      (forall i, i < n -> nth_error meta' i = Some (chan_meta (to64 L) data A ops i)) /\
      (forall p a, p < nPol -> a < nAnt -> nth_error meta' (n + nAnt * p + a) = Some (ant_meta A ops p a)) /\
      af_roundtrip fuel e nPol nChan nAnt d b meta sym r = Some (Ok out) /\ length out = n /\
      forall i v im, nth_error (visibilities row) i = Some v -> exists s q w,
        let c := chan_meta (to64 L) data A ops i in let a1 := ant_meta A ops (i mod nPol) (antenna1 row) in let a2 := ant_meta A ops (i mod nPol) (antenna2 row) in
        enc_value e d (r * (n * 2) + i * 2 + b2n im) (part im (fin (to64 L) data A ops (wide row) i (widen v))) = Ok s /\ s < QuantizationCount e /\
        Decode e s = Ok q /\ nth_error out i = Some w /\
        part im w = to32 (mul64 (to64 q) (mul64 (to64 c) (mul64 (to64 a1) (to64 a2)))).
Proof.
  intros W EL FL PL Hs Hc data. destruct (af_encode_form e L b W EL FL PL Hs Hc) as (A & ops & HA & St & Hh & Form). fold data in HA, St, Form.
  exists A, ops. split; [trivial|]. split; [trivial|]. split; [trivial|]. intros fuel d meta sym r row Hf Hm Hsym N.
  destruct (Form fuel d meta sym Hf Hm Hsym) as (meta' & sym' & E & Lm & Ls & C1 & C2 & _ & Ho & _).
  assert (Nb : b <> []) by (intros ->; now destruct r). specialize (C1 Nb). specialize (Ho r row N).
  unfold af_roundtrip. rewrite E. cbn [bind].
  destruct (af_init_ok meta') as (cs & as_ & Ei & Lc & Hcs & La & Has); [lia|]. rewrite Ei. cbn [bind]. unfold rd at 1. rewrite N. cbn [bind].
  destruct (proj2 Hs row (nth_error_In _ _ N)) as (H1 & H2).
  unfold af_decode. cbn [fst snd].
  pose (am := fun p => mul64 (to64 (ant_meta A ops p (antenna1 row))) (to64 (ant_meta A ops p (antenna2 row)))).
  rewrite (mapM_map _ am).
  2: { intros p I. apply in_seq in I. unfold rd. rewrite !Has by lia. rewrite !C2 by lia. reflexivity. }
  cbn [bind].
  assert (Lr : length (visibilities row) = n) by (apply Hs; eapply nth_error_In; eauto).
  assert (F : forall i, i < n -> (do c <- rd (map to64 cs) i; do x <- rd (map am (seq 0 nPol)) (i mod nPol); Ok (mul64 c x)) =
    Ok (mul64 (to64 (chan_meta (to64 L) data A ops i)) (am (i mod nPol)))).
  { intros i Hi. destruct (stride_of nPol nChan i Hi) as (Hp & _ & _). unfold rd. rewrite !nth_error_map, Hcs, C1 by trivial. cbn [option_map bind].
    rewrite (nth_error_nth' (seq 0 nPol) 0) by now rewrite seq_length. cbn [option_map bind]. rewrite seq_nth by trivial. reflexivity. }
  destruct (decode_holds e W d n (SymbolsPerRow nPol nChan) r (remap (fin (to64 L) data A ops) (wide row)) sym'
    (fun i => do c <- rd (map to64 cs) i; do x <- rd (map am (seq 0 nPol)) (i mod nPol); Ok (mul64 c x))) as (out & Eo & Lo & HO).
  - unfold SymbolsPerRow. lia.
  - cbn [visibilities remap wide]. now rewrite imap_length, map_length.
  - exact Ho.
  - intros i Hi. rewrite F by trivial. eauto.
  - exists meta', sym', out. split; [reflexivity|]. split; [trivial|]. split; [trivial|]. split; [f_equal; exact Eo|]. split; [trivial|].
    intros i v im Nv. pose proof (nth_lt _ _ _ Nv) as Hi. rewrite Lr in Hi.
    destruct (HO i (fin (to64 L) data A ops (wide row) i (widen v)) im) as (f & s & q & w & A1 & A2 & A3 & A4 & A5 & A6).
    + cbn [visibilities remap wide]. rewrite imap_nth, nth_error_map, Nv. reflexivity.
    + rewrite F in A1 by trivial. injection A1 as <-. exists s, q, w. repeat split; trivial.
Qed.
End Code.
