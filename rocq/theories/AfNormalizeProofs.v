(** [AFTimeBlockEncoder::Normalize] reads and writes only elements that exist.  Proof file. *)
From Verif Require Import Base BaseLemmas Floats FloatLemmas DictionaryProofs TimeBlockBuffer StochasticEncoder EncSpec TimeBlockEncoders TbeSpec TbeLoops AfSpec AfForm AfNormalize.
Local Open Scope nat_scope.

Section S.
Variables (nPol nChan nAnt : nat).
Notation n := (nPol * nChan).

Definition row_ok (r : drow cd) : Prop := length (visibilities r) = n /\ antenna1 r < nAnt /\ antenna2 r < nAnt.
Definition rows_ok (data : list (drow cd)) : Prop := forall r, In r data -> row_ok r.

Lemma rows_ok_shaped data : rows_ok data <-> shaped nPol nChan nAnt data.
Proof.
  split.
  - intros H. split; intros r I; now apply (H r I).
  - intros (H1 & H2) r I. split; [now apply H1|now apply H2].
Qed.

Lemma upd_row r i g : row_ok r -> i < n -> exists r', upd_vis r i g = Ok r' /\ row_ok r'.
Proof.
  intros (L & A1 & A2) H. unfold upd_vis. destruct (rd_ok (visibilities r) i) as (v & E & _); [now rewrite L|]. rewrite E. cbn [bind].
  rewrite wr_ok by now rewrite L. cbn [bind]. eexists. split; [reflexivity|]. split; [cbn; now rewrite upd_length|]. now split.
Qed.
Lemma fold_row (f : drow cd -> nat -> res (drow cd)) (l : list nat) : (forall r i, row_ok r -> In i l -> exists r', f r i = Ok r' /\ row_ok r') ->
  forall r, row_ok r -> exists r', foldM f l r = Ok r' /\ row_ok r'.
Proof.
  induction l as [|i l IH]; intros H r R; cbn [foldM]; [eauto|]. destruct (H r i R) as (r1 & E & R1); [now left|]. rewrite E. cbn [bind].
  apply IH; trivial. intros r2 j R2 J. apply H; trivial. now right.
Qed.
Lemma map_rows (f : drow cd -> res (drow cd)) data : (forall r, row_ok r -> exists r', f r = Ok r' /\ row_ok r') -> rows_ok data -> exists data', mapM f data = Ok data' /\ rows_ok data'.
Proof.
  intros H. induction data as [|r data IH]; intros R; cbn [mapM]; [eauto|].
  destruct (H r) as (r1 & E & R1); [apply R; now left|]. rewrite E. cbn [bind].
  destruct IH as (d & E' & D); [intros q I; apply R; now right|]. rewrite E'. cbn [bind]. eexists. split; [reflexivity|].
  intros q [<-|I]; auto.
Qed.
Lemma fold_rows {A} (f : list (drow cd) -> A -> res (list (drow cd))) l :
  (forall data a, rows_ok data -> In a l -> exists data', f data a = Ok data' /\ rows_ok data') ->
  forall data, rows_ok data -> exists data', foldM f l data = Ok data' /\ rows_ok data'.
Proof.
  induction l as [|i l IH]; intros H r R; cbn [foldM]; [eauto|]. destruct (H r i R) as (r1 & E & R1); [now left|]. rewrite E. cbn [bind].
  apply IH; trivial. intros r2 j R2 J. apply H; trivial. now right.
Qed.

Lemma channels_ok data : rows_ok data -> exists data', normalize_channels n data = Ok data' /\ rows_ok data'.
Proof.
  intros R. unfold normalize_channels. destruct (channel_meas_eq nPol nChan data) as (ms & E & L & _); [now apply rows_ok_shaped in R as (? & _)|].
  rewrite E. cbn [bind]. apply map_rows; trivial. intros r Rr. apply fold_row; trivial. intros r0 i R0 I. apply in_seq in I.
  destruct (rd_ok ms i) as (m & Em & _); [lia|]. rewrite Em. cbn [bind]. apply upd_row; trivial. lia.
Qed.
Lemma antennas_ok data p : rows_ok data -> p < nPol -> exists data', normalize_antennas nPol nChan nAnt data p = Ok data' /\ rows_ok data'.
Proof.
  intros R P. unfold normalize_antennas. destruct (antennae_ok nPol nChan nAnt p data) as (ms & E & L); [trivial|now apply rows_ok_shaped|].
  rewrite E. cbn [bind]. apply map_rows; trivial. intros r Rr. pose proof Rr as (_ & A1 & A2).
  destruct (rd_ok ms (antenna1 r)) as (x1 & E1 & _); [lia|]. destruct (rd_ok ms (antenna2 r)) as (x2 & E2 & _); [lia|]. rewrite E1, E2. cbn [bind].
  apply fold_row; trivial. intros r0 i R0 I. apply in_seq in I. apply upd_row; trivial. clear - I P. nia.
Qed.
Lemma factor_ok hi lo i data : rows_ok data -> i < n -> exists f, normalize_factor hi lo i data = Ok f.
Proof.
  intros R I. unfold normalize_factor. generalize one64. induction data as [|r data IH]; intros f; cbn [foldM]; [eauto|].
  assert (R' : rows_ok data) by (intros q Q; apply R; now right). match goal with |- context [if ?b then _ else _] => destruct b end; [|cbn [bind]; now apply IH].
  destruct (rd_ok (visibilities r) i) as (v & E & _). { destruct (R r) as (-> & _); [now left|trivial]. }
  unfold cd in E |- *. rewrite E. cbn [bind]. now apply IH.
Qed.
Lemma fit_ok hi lo data : rows_ok data -> exists data', normalize_fit n hi lo data = Ok data' /\ rows_ok data'.
Proof.
  intros R. unfold normalize_fit. apply fold_rows; trivial. intros d i D I. apply in_seq in I. destruct (factor_ok hi lo i d) as (f & E); [trivial|lia|].
  rewrite E. cbn [bind]. apply map_rows; trivial. intros r Rr. apply upd_row; trivial. lia.
Qed.

Lemma normalized_ok e fit b : dec e <> [] -> rows_of n b -> antennas_below nAnt b ->
  exists data, normalized e nPol nChan nAnt fit b = Ok data /\ rows_ok data.
Proof.
  intros D R A. unfold normalized. destruct (channels_ok (ConvertVector widen b)) as (d1 & E1 & R1).
  { intros r I. apply in_map_iff in I. destruct I as (r0 & <- & I). split; [cbn; rewrite map_length; now apply R|]. cbn. now apply A. }
  rewrite E1. cbn [bind]. destruct (fold_rows (normalize_antennas nPol nChan nAnt) (seq 0 nPol)) with (data := d1) as (d2 & E2 & R2); trivial.
  { intros d p Rd I. apply in_seq in I. apply antennas_ok; trivial. lia. }
  rewrite E2. cbn [bind]. destruct fit; [|eauto]. assert (L : 0 < length (dec e)) by (destruct (dec e); [congruence|cbn; lia]).
  unfold MaxQuantity, MinQuantity. destruct (rd_ok (dec e) (length (dec e) - 1)) as (hi & Eh & _); [lia|]. destruct (rd_ok (dec e) 0) as (lo & El & _); [lia|].
  rewrite Eh, El. cbn [bind]. now apply fit_ok.
Qed.
Lemma Normalize_unchanged e fit b : dec e <> [] -> rows_of n b -> antennas_below nAnt b -> Normalize e nPol nChan nAnt fit b = Ok b.
Proof. intros D R A. unfold Normalize. destruct (normalized_ok e fit b D R A) as (d & E & _). now rewrite E. Qed.
End S.
