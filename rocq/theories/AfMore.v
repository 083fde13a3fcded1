(** The antenna factor encoder: fuel, buffers and non-finite values.  Proof file. *)
From Coq Require Import Reals Lra.
From Flocq Require Import Core.
From Verif Require Import Base BaseLemmas Floats FloatLemmas WeightProofs WeightMoreProofs TimeBlockBuffer StochasticEncoder EncSpec TimeBlockEncoders
  TbeSpec TbeLoops TbeRowRf TbeReal TbeErr TbeRowRfProofs TbeMore AfForm AfFit AfSpec AfCode AfErr AfBound.
Local Open Scope nat_scope.
Local Arguments imap : simpl never.
Local Arguments Nat.ltb : simpl never.

(** ** Fuel *)
Lemma fit_loop_more nPol nChan pol nAnt L : forall fuel fuel' data meta x, fuel <= fuel' -> fit_loop fuel nPol nChan pol nAnt L data meta = Some x ->
  fit_loop fuel' nPol nChan pol nAnt L data meta = Some x.
Proof.
  induction fuel as [|fuel IH]; intros fuel' data meta x H E; [discriminate|]. destruct fuel' as [|fuel']; [lia|]. cbn [fit_loop] in *.
  destruct (fit_step nPol nChan pol nAnt L data meta) as [((d, m), [|])| |]; trivial. apply IH; trivial. lia.
Qed.
Lemma fit_pols_more nPol nChan nAnt L fuel fuel' : fuel <= fuel' -> forall pols data meta x, fit_pols fuel nPol nChan nAnt L pols data meta = Some x ->
  fit_pols fuel' nPol nChan nAnt L pols data meta = Some x.
Proof.
  intros H. induction pols as [|p t IH]; intros data meta x E; trivial. cbn [fit_pols] in *.
  destruct (fit_loop fuel nPol nChan p nAnt L data meta) as [y|] eqn:E1; [|discriminate]. rewrite (fit_loop_more _ _ _ _ _ _ _ _ _ _ H E1).
  destruct y as [(d, m)| |]; trivial. now apply IH.
Qed.
Lemma af_encode_more fuel fuel' e nPol nChan nAnt d b meta sym x : fuel <= fuel' -> af_encode fuel e nPol nChan nAnt d b meta sym = Some x ->
  af_encode fuel' e nPol nChan nAnt d b meta sym = Some x.
Proof.
  intros H. unfold af_encode, fitToMaximum. destruct (do L <- MaxQuantity e; do st <- _; Ok (L, st)) as [(L, (data, m))| |]; trivial.
  destruct (fit_channels _ _ _ _) as [(d1, m1)| |]; trivial. intros E.
  destruct (fit_pols fuel nPol nChan nAnt (to64 L) (seq 0 nPol) d1 m1) as [y|] eqn:E1; [|discriminate]. now rewrite (fit_pols_more _ _ _ _ _ _ H _ _ _ _ E1).
Qed.

Lemma af_terminates e nPol nChan nAnt d b meta sym L : well_formed e -> MaxQuantity e = Ok L -> is_finite L = true -> (0 < B2R L)%R ->
  rows_of (nPol * nChan) b -> antennas_below nAnt b -> 0 < nChan ->
  af_MetaDataCount (length b) nPol nChan nAnt <= length meta -> SymbolCount (length b) nPol nChan <= length sym ->
  exists x, forall fuel, nChan + nAnt < fuel -> af_encode fuel e nPol nChan nAnt d b meta sym = Some (Ok x).
Proof.
  intros W EL FL PL R A Hc Hm Hs. destruct (af_encode_form nPol nChan nAnt e L b W EL FL PL (conj R A) Hc) as (A' & ops & _ & _ & _ & H).
  destruct (H (S (nChan + nAnt)) d meta sym) as (m & s & E & _); trivial; [lia|]. exists (m, s). intros fuel Hf. eapply af_encode_more; [|exact E]. lia.
Qed.

(** ** Buffers *)
Definition af_run (fuel : nat) (e : encoder) (nPol nChan nAnt : nat) (d : option (nat -> Z)) (b : tbb cf) (meta : list f32) (sym : list nat) : res (list f32 * list nat) :=
  match af_encode fuel e nPol nChan nAnt d b meta sym with Some x => x | None => UB end.

Lemma slots nPol nChan nAnt k : k < nPol * (nChan + nAnt) -> nPol * nChan <= k -> exists p a, p < nPol /\ a < nAnt /\ k = nPol * nChan + nAnt * p + a.
Proof.
  intros H1 H2. assert (0 < nAnt) by (destruct nAnt; [nia|lia]). exists ((k - nPol * nChan) / nAnt), ((k - nPol * nChan) mod nAnt).
  pose proof (Nat.div_mod (k - nPol * nChan) nAnt ltac:(lia)) as Q. pose proof (Nat.mod_upper_bound (k - nPol * nChan) nAnt ltac:(lia)) as Q2.
  split; [|split; [trivial|lia]]. apply Nat.div_lt_upper_bound; [lia|]. nia.
Qed.

Lemma fin_length nPol nChan nAnt (b : tbb cf) g row : shaped nPol nChan nAnt b -> In row b -> length (visibilities (remap g (wide row))) = nPol * nChan.
Proof. intros (H & _) I. cbn [visibilities remap wide]. rewrite imap_length, map_length. now apply H. Qed.

Lemma af_filled fuel e nPol nChan nAnt d b meta sym L : well_formed e -> MaxQuantity e = Ok L -> is_finite L = true -> (0 < B2R L)%R ->
  rows_of (nPol * nChan) b -> antennas_below nAnt b -> 0 < nChan -> b <> [] -> nChan + nAnt < fuel ->
  af_MetaDataCount (length b) nPol nChan nAnt <= length meta -> SymbolCount (length b) nPol nChan <= length sym ->
  filled e (af_MetaDataCount (length b) nPol nChan nAnt) (SymbolCount (length b) nPol nChan) meta sym (af_run fuel e nPol nChan nAnt d b).
Proof.
  intros W EL FL PL R A Hc Nb Hf Hm Hs. pose proof (conj R A : shaped nPol nChan nAnt b) as Sh.
  destruct (af_encode_form nPol nChan nAnt e L b W EL FL PL Sh Hc) as (A' & ops & _ & _ & _ & H).
  destruct (H fuel d meta sym Hf Hm Hs) as (m & s & E & Lm & Ls & HC & HA & Um & Hd & Us).
  assert (EC : SymbolCount (length b) nPol nChan = length b * (nPol * nChan * 2)) by (unfold SymbolCount; lia).
  set (f := fun row => remap (fin nPol (to64 L) (map wide b) A' ops) (wide row)).
  assert (Lf : forall row, In row b -> length (visibilities (f row)) = nPol * nChan) by (intros row I; now apply (fin_length nPol nChan nAnt b)).
  unfold af_run. exists m, s. split; [now rewrite E|]. split; trivial. split; trivial. split; [exact Um|]. split; [exact Us|]. split.
  - intros k x Hk Nx. eapply (symbols_same e d (nPol * nChan) b f s s W Lf Hd); [lia|exact Hd|lia| |exact Nx]. lia.
  - intros meta' sym' Hm' Hs'. destruct (H fuel d meta' sym' Hf Hm' Hs') as (m' & s' & E' & Lm' & Ls' & HC' & HA' & _ & Hd' & _).
    exists m', s'. split; [now rewrite E'|]. split.
    + intros k Hk. destruct (Nat.lt_ge_cases k (nPol * nChan)) as [Q|Q]; [rewrite HC by trivial; now apply HC'|].
      destruct (slots nPol nChan nAnt k Hk Q) as (p & a & Hp & Ha & ->). rewrite HA by trivial. now apply HA'.
    + intros k Hk. apply (symbols_same e d (nPol * nChan) b f s s' W Lf Hd); [lia|exact Hd'|lia|lia].
Qed.

(** ** Non-finite components *)
Lemma div64_not_finite (x y : f64) : is_finite x = false -> is_finite (div64 x y) = false.
Proof. destruct x; try discriminate; intros _; now destruct y. Qed.

Lemma fin_not_finite nPol L data A ops r i im v : is_finite (part im v) = false -> is_finite (part im (fin nPol L data A ops r i v)) = false.
Proof.
  intros H. unfold fin. set (w := cmul _ _).
  assert (F : is_finite (part im w) = false).
  { unfold w. rewrite !part_cmul. do 2 apply mul64_not_finite. unfold ch_norm. destruct (is0 _); trivial. rewrite part_cdiv. now apply div64_not_finite. }
  clearbody w. revert w F. induction ops as [|o ops IH]; intros w F; trivial. apply (IH (sc (fac o) (hits nPol o r i) w)). rewrite part_sc.
  generalize (hits nPol o r i). intros k. induction k as [|k IHk]; trivial. now apply mul64_not_finite.
Qed.

Lemma af_nonfinite fuel e nPol nChan nAnt d b meta sym L r row : well_formed e -> MaxQuantity e = Ok L -> is_finite L = true -> (0 < B2R L)%R ->
  rows_of (nPol * nChan) b -> antennas_below nAnt b -> 0 < nChan -> nChan + nAnt < fuel ->
  af_MetaDataCount (length b) nPol nChan nAnt <= length meta -> SymbolCount (length b) nPol nChan <= length sym -> nth_error b r = Some row ->
  exists out, af_roundtrip fuel e nPol nChan nAnt d b meta sym r = Some (Ok out) /\
    forall i v im, nth_error (visibilities row) i = Some v -> is_finite (part im v) = false ->
    exists w, nth_error out i = Some w /\ is_nan (part im w) = true.
Proof.
  intros W EL FL PL R A Hc Hf Hm Hs N. destruct (af_roundtrip_form nPol nChan nAnt e L b W EL FL PL (conj R A) Hc) as (A' & ops & _ & _ & _ & H).
  destruct (H fuel d meta sym r row Hf Hm Hs N) as (m & s & out & _ & _ & _ & E & _ & Hv). exists out. split; trivial.
  intros i v im Nv F. destruct (Hv i v im Nv) as (s0 & q & w & Es & Hs' & D & Nw & Pw). exists w. split; trivial. rewrite Pw.
  apply (dec_nonfinite e s0); trivial. eapply enc_nonfinite; [trivial| |exact Es]. apply fin_not_finite. rewrite part_widen. now apply conv_not_finite.
Qed.
