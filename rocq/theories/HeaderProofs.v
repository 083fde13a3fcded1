(** Lemmas about the header. *)
From Verif Require Import Base BaseLemmas BytePacker File FileProofs StMan StManSpec.
Local Open Scope N_scope.

Lemma SerializeColumn_length c : length (SerializeColumn c) = 12%nat.
Proof. reflexivity. Qed.
Lemma SerializeHeader_len h : len (SerializeHeader h) = 52 + len (smName h).
Proof. unfold SerializeHeader. rewrite !len_app, !len_le. cbn [N.of_nat Pos.of_succ_nat Pos.succ]. lia. Qed.
Lemma columns_len cs : len (concat (map SerializeColumn cs)) = 12 * N.of_nat (length cs).
Proof.
  induction cs as [|c cs IH]; trivial. cbn [map concat length]. rewrite len_app, IH. unfold len. rewrite SerializeColumn_length. lia.
Qed.
Lemma header_bytes_len m : len (header_bytes m) = 52 + len (name m) + 12 * N.of_nat (length (columns m)).
Proof. unfold header_bytes. rewrite len_app, SerializeHeader_len, columns_len. reflexivity. Qed.
Lemma header_bytes_ne m : header_bytes m <> [].
Proof. intros E. pose proof (header_bytes_len m) as H. rewrite E in H. unfold len at 1 in H. cbn [length N.of_nat] in H. lia. Qed.

Lemma colOffset_eq nm : calculateColumnHeaderOffset nm = 52 + len nm.
Proof. unfold calculateColumnHeaderOffset. lia. Qed.

Lemma headerSize_eq m : storable m -> headerSize_of (name m) (length (columns m)) = 52 + len (name m) + 24 * N.of_nat (length (columns m)).
Proof.
  intros H. destruct H as [H _ _ _ _ _ _ _ _ _ _]. unfold headerSize_of, u32. rewrite colOffset_eq. unfold sizeof_GenericColumnHeader, ExtraHeaderSize.
  rewrite N.mod_small; lia.
Qed.

(** ** Reading a header that is in the file *)

Record fits (h : header) : Prop := {
  f1 : headerSize h < 2 ^ 32; f2 : columnHeaderOffset h < 2 ^ 32; f3 : columnCount h < 2 ^ 32; f4 : len (smName h) < 2 ^ 32;
  f5 : h_rowsPerBlock h < 2 ^ 32; f6 : h_antennaCount h < 2 ^ 32; f7 : h_blockSize h < 2 ^ 32;
  f8 : versionMajor h < 2 ^ 16; f9 : versionMinor h < 2 ^ 16;
  f10 : h_dataBitCount h < 256; f11 : h_weightBitCount h < 256; f12 : h_distribution h < 256; f13 : h_normalization h < 256;
  f14 : h_studentTNu h < 2 ^ 64; f15 : h_truncation h < 2 ^ 64 }.

Definition raw_of (h : header) : raw_header :=
  Raw (Some (headerSize h)) (Some (columnHeaderOffset h)) (Some (columnCount h)) (Some (smName h))
    (Some (h_rowsPerBlock h)) (Some (h_antennaCount h)) (Some (h_blockSize h)) (Some (versionMajor h)) (Some (versionMinor h))
    (Some (h_dataBitCount h)) (Some (h_weightBitCount h)) (Some (h_distribution h)) (Some (h_normalization h))
    (Some (h_studentTNu h)) (Some (h_truncation h)).

Ltac read_int A :=
  lazymatch type of A with at_ ?f ?o (le ?n ?v) =>
    let B := fresh "B" in
    assert (B : v < 256 ^ N.of_nat n) by
      (let x := eval cbv in (256 ^ N.of_nat n) in change (256 ^ N.of_nat n) with x; first [assumption | lia | (cbv; reflexivity)]);
    rewrite (at_iread_int f o n v B A); clear B end.
Ltac step_int H :=
  apply at_app in H; let A := fresh "A" in destruct H as (A & H); rewrite len_le in H; read_int A.

Lemma unserialize_ok f h : fits h -> at_ f 0 (SerializeHeader h) ->
  UnserializeHeader f (IStream 0 false) = Ok (raw_of h, IStream (52 + len (smName h)) false).
Proof.
  intros [] H. unfold SerializeHeader in H. unfold UnserializeHeader, iread_string.
  do 4 step_int H.
  apply at_app in H. destruct H as (An & H).
  replace (N.to_nat (len (smName h))) with (length (smName h)) by (unfold len; lia).
  rewrite (at_iread _ _ _ An). cbn [bind].
  do 10 step_int H. 
  read_int H.
  unfold raw_of. f_equal. f_equal. f_equal. cbn [N.of_nat Pos.of_succ_nat Pos.succ]. lia.
Qed.

Lemma readColumns_ok f : forall cs0 cs off s, Forall (fun c => co_blockSize c < 2 ^ 32 /\ co_antennas c < 2 ^ 32) cs ->
  length cs0 = length cs -> at_ f off (concat (map SerializeColumn cs)) -> ifail s = false ->
  let '(cs', s') := readColumns f off cs0 s in
  ifail s' = false /\
  Forall2 (fun c c' => co_blockSize c' = co_blockSize c /\ co_antennas c' = co_antennas c) cs cs' /\
  Forall2 (fun c c' => co_kind c' = co_kind c /\ co_nPol c' = co_nPol c /\ co_nChan c' = co_nChan c /\ co_bits c' = co_bits c /\ co_offset c' = co_offset c) cs0 cs'.
Proof.
  induction cs0 as [|c0 cs0 IH]; intros [|c cs] off s F L H Fs; try discriminate; cbn [readColumns].
  - repeat split; trivial; constructor.
  - inversion F as [|? ? (Hb & Ha) F']; subst. cbn [map concat] in H.
    apply at_app in H. destruct H as (H & Ht). unfold iseek. rewrite Fs.
    unfold SerializeColumn, SerializeExtraHeader in H. do 2 step_int H.
    read_int H.
    specialize (IH cs (off + (GenericColumnHeader_calculateSize + ExtraHeaderSize)) (IStream (off + N.of_nat 4 + N.of_nat 4 + N.of_nat 4) false) F' ltac:(injection L; auto)).
    destruct (readColumns f _ cs0 _) as (cs' & s'). destruct IH as (? & ? & ?); trivial.
    repeat split; trivial; constructor; trivial; repeat split; trivial.
Qed.

Lemma fits_header m : storable m -> fits (header_of m).
Proof.
  intros H. pose proof (headerSize_eq m H) as E. destruct H. constructor; cbn [headerSize columnHeaderOffset columnCount smName header_of h_rowsPerBlock h_antennaCount h_blockSize versionMajor versionMinor h_dataBitCount h_weightBitCount h_distribution h_normalization h_studentTNu h_truncation]; trivial; try (rewrite ?E, ?colOffset_eq; lia).
Qed.

Lemma written m : at_ (fil (writeHeader m)) 0 (header_bytes m).
Proof. cbn [writeHeader set_file fil set_hdrSize]. apply at_fwrite, header_bytes_ne. Qed.

Lemma header_roundtrip_at m m0 : storable m -> length (columns m0) = length (columns m) ->
  at_ (fil m0) 0 (header_bytes m) ->
  exists m' s, readHeader m0 = Ok (m', s) /\ ifail s = false /\ same_settings (writeHeader m) m' /\
    fil m' = fil m0 /\ nRow m' = nRow m0 /\ nBlocksInFile m' = nBlocksInFile m0 /\
    Forall2 (fun c c' => co_kind c' = co_kind c /\ co_nPol c' = co_nPol c /\ co_nChan c' = co_nChan c /\ co_bits c' = co_bits c /\ co_offset c' = co_offset c)
      (columns m0) (columns m').
Proof.
  intros St L A. pose proof (fits_header m St) as Fi. unfold header_bytes in A. apply at_app in A. destruct A as (A1 & A2).
  unfold readHeader. rewrite (unserialize_ok _ _ Fi A1). cbn [bind ifail raw_of use r_headerSize r_columnHeaderOffset r_columnCount r_name r_rowsPerBlock r_antennaCount r_blockSize r_versionMajor r_versionMinor r_dataBitCount r_weightBitCount r_distribution r_normalization r_studentTNu r_truncation].
  cbn [versionMajor versionMinor header_of N.eqb Pos.eqb andb negb columnCount].
  rewrite L, N.eqb_refl. cbn [negb].
  pose proof (readColumns_ok (fil m0) (columns m0) (columns m) (columnHeaderOffset (header_of m)) (IStream (52 + len (smName (header_of m))) false) (st_cols _ St) L) as R.
  destruct (readColumns _ _ _ _) as (cs & s).
  destruct R as (R1 & R2 & R3); trivial.
  { rewrite SerializeHeader_len in A2. cbn [columnHeaderOffset header_of smName] in *. now rewrite colOffset_eq. }
  eexists _, s. split; [reflexivity|]. split; trivial.
  unfold same_settings. cbn [fil nRow nBlocksInFile columns rowsPerBlock antennaCount blockSize hdrSize name dataBitCount weightBitCount distribution normalization studentTNu truncation writeHeader set_file set_hdrSize
    header_of h_rowsPerBlock h_antennaCount h_blockSize headerSize smName h_dataBitCount h_weightBitCount h_distribution h_normalization h_studentTNu h_truncation].
  repeat split; trivial.
Qed.

Lemma header_roundtrip m m0 : storable m -> length (columns m0) = length (columns m) ->
  fil m0 = fil (writeHeader m) ->
  exists m' s, readHeader m0 = Ok (m', s) /\ ifail s = false /\ same_settings (writeHeader m) m' /\
    fil m' = fil m0 /\ nRow m' = nRow m0 /\ nBlocksInFile m' = nBlocksInFile m0 /\
    Forall2 (fun c c' => co_kind c' = co_kind c /\ co_nPol c' = co_nPol c /\ co_nChan c' = co_nChan c /\ co_bits c' = co_bits c /\ co_offset c' = co_offset c)
      (columns m0) (columns m').
Proof. intros St L E. apply header_roundtrip_at; trivial. rewrite E. apply written. Qed.

(** ** Rejected headers *)

Lemma wrong_version f h m0 : fits h -> fil m0 = f -> at_ f 0 (SerializeHeader h) ->
  (versionMajor h <> 1 \/ versionMinor h <> 0) -> readHeader m0 = Throw.
Proof.
  intros Fi <- A V. unfold readHeader. rewrite (unserialize_ok _ _ Fi A). cbn [bind ifail raw_of use r_headerSize r_columnHeaderOffset r_columnCount r_name r_rowsPerBlock r_antennaCount r_blockSize r_versionMajor r_versionMinor r_dataBitCount r_weightBitCount r_distribution r_normalization r_studentTNu r_truncation].
  replace ((versionMajor h =? 1) && (versionMinor h =? 0))%bool with false; trivial.
  symmetry. apply andb_false_iff. destruct V; [left|right]; now apply N.eqb_neq.
Qed.

Lemma wrong_columns f h m0 : fits h -> fil m0 = f -> at_ f 0 (SerializeHeader h) ->
  columnCount h <> N.of_nat (length (columns m0)) -> readHeader m0 = Throw.
Proof.
  intros Fi <- A V. unfold readHeader. rewrite (unserialize_ok _ _ Fi A). cbn [bind ifail raw_of use r_headerSize r_columnHeaderOffset r_columnCount r_name r_rowsPerBlock r_antennaCount r_blockSize r_versionMajor r_versionMinor r_dataBitCount r_weightBitCount r_distribution r_normalization r_studentTNu r_truncation].
  destruct (negb _); trivial. now rewrite (proj2 (N.eqb_neq _ _) V).
Qed.

(** [k] bytes have been read, or the stream failed in doing so *)
Definition reach (f : file) (k : N) (s : istream) : Prop :=
  (ifail s = true /\ fsize f < k) \/ (s = IStream k false /\ k <= fsize f).

Lemma reach_adv f k n s : reach f k s -> reach f (k + n) (adv f n s).
Proof.
  intros [(H & L)|(-> & L)]; unfold adv.
  - rewrite H. left. split; trivial. lia.
  - cbn [ifail ipos]. destruct (N.leb_spec (k + n) (fsize f)); [right|left]; now split.
Qed.

Lemma reach_iread f k n s : reach f k s -> reach f (k + N.of_nat n) (snd (iread f n s)).
Proof. rewrite iread_adv. apply reach_adv. Qed.
Lemma reach_int f k n s : reach f k s -> reach f (k + N.of_nat n) (snd (iread_int f n s)).
Proof. rewrite iread_int_adv. apply reach_adv. Qed.

Ltac open_int H := match goal with |- context [iread_int ?f ?n ?s] =>
  apply (reach_int f _ n s) in H;
  let v := fresh "v" in let s' := fresh "s" in
  destruct (iread_int f n s) as (v & s'); cbn [snd] in H end.

(** the stream after the header *)
Lemma unserialize_stream f L : at_ f 12 (le 4 L) -> L < 2 ^ 32 ->
  exists h s, UnserializeHeader f (IStream 0 false) = Ok (h, s) /\ reach f (52 + L) s.
Proof.
  intros A HL. assert (Hs : 16 <= fsize f) by (destruct A as (A & _); rewrite len_le in A; cbn in A; lia).
  unfold UnserializeHeader, iread_string.
  assert (H : reach f 0 (IStream 0 false)) by (right; split; [trivial|lia]).
  do 3 open_int H. destruct H as [(_ & H)|(-> & _)]; [cbn in H; lia|].
  change (0 + N.of_nat 4 + N.of_nat 4 + N.of_nat 4) with 12. read_int A. cbn [bind].
  change (12 + N.of_nat 4) with 16.
  assert (H : reach f 16 (IStream 16 false)) by (right; split; [trivial|lia]).
  apply (reach_iread f _ (N.to_nat L)) in H. destruct (iread f _ _) as (nm & s2). cbn [snd] in H.
  do 11 open_int H. eexists _, _. split; [reflexivity|].
  match goal with H : reach f ?k ?s |- reach f ?k' ?s => replace k' with k; trivial end.
  rewrite N2Nat.id. cbn [N.of_nat Pos.of_succ_nat Pos.succ]. lia.
Qed.

(** a header too short for the length of the name *)
Lemma unserialize_short f : fsize f < 16 -> UnserializeHeader f (IStream 0 false) = UB.
Proof.
  intros Hs. unfold UnserializeHeader, iread_string.
  assert (H : reach f 0 (IStream 0 false)) by (right; split; [trivial|lia]).
  do 3 open_int H. unfold iread_int, iread.
  destruct H as [(H & _)|(-> & H)]; [rewrite H; reflexivity|].
  cbn [ifail ipos]. change (0 + N.of_nat 4 + N.of_nat 4 + N.of_nat 4) with 12.
  change (N.of_nat 4) with 4.
  destruct (N.leb_spec (12 + 4) (fsize f)); [lia|]. reflexivity.
Qed.

(** failing column headers *)
Lemma readColumns_failed f : forall cs off s, ifail s = true -> ifail (snd (readColumns f off cs s)) = true.
Proof.
  assert (X : forall n s, ifail s = true -> ifail (snd (iread_int f n s)) = true).
  { intros n s H. rewrite iread_int_adv, adv_fail; trivial. }
  induction cs as [|c cs IH]; intros off s H; cbn [readColumns]; trivial.
  unfold iseek. rewrite H.
  pose proof (X 4%nat s H) as H1. destruct (iread_int f 4 s) as (a & s1). cbn [snd] in H1.
  pose proof (X 4%nat s1 H1) as H2. destruct (iread_int f 4 s1) as (b & s2). cbn [snd] in H2.
  pose proof (X 4%nat s2 H2) as H3. destruct (iread_int f 4 s2) as (d & s3). cbn [snd] in H3.
  pose proof (IH (off + match a with Some h => h | None => 0 end) s3 H3) as H4.
  destruct (readColumns f _ cs s3) as (t & s4). exact H4.
Qed.

Lemma iread_int_at f n s v : ifail s = false -> (forall i, ipos s <= i < ipos s + N.of_nat n -> i < fsize f -> fbyte f i = nth (N.to_nat (i - ipos s)) (le n v) 0) ->
  v < 256 ^ N.of_nat n ->
  iread_int f n s = (if ipos s + N.of_nat n <=? fsize f then (Some v, IStream (ipos s + N.of_nat n) false) else (None, IStream (fsize f) true)).
Proof.
  intros Hf H Hv. destruct s as [p b]. cbn [ifail ipos] in *. subst b.
  destruct (N.leb_spec (p + N.of_nat n) (fsize f)) as [L|L].
  - apply at_iread_int; trivial. split; [now rewrite len_le|]. rewrite le_length.
    apply nth_ext with (d := 0) (d' := 0); [now rewrite bytes_length, le_length|].
    intros k Hk. rewrite bytes_length in Hk. unfold bytes.
    rewrite (nth_indep _ 0 (fbyte f (p + N.of_nat 0))) by (rewrite map_length, seq_length; lia).
    rewrite (map_nth (fun k => fbyte f (p + N.of_nat k)) (seq 0 n) 0%nat k), seq_nth by lia.
    rewrite H by lia. f_equal. lia.
  - unfold iread_int, iread. cbn [ifail ipos]. now rewrite (proj2 (N.leb_gt _ _)) by lia.
Qed.

(** [f] begins like a file that has [bs] at [off] *)
Definition prefix_at (f : file) (off : N) (bs : list N) : Prop :=
  forall i, off <= i < off + len bs -> i < fsize f -> fbyte f i = nth (N.to_nat (i - off)) bs 0.

Lemma prefix_app f off a b : prefix_at f off (a ++ b) -> prefix_at f off a /\ prefix_at f (off + len a) b.
Proof.
  intros H. split; intros i Hi Hs.
  - rewrite (H i) by (rewrite ?len_app; lia). apply app_nth1. unfold len in Hi. lia.
  - rewrite (H i) by (rewrite ?len_app; lia). rewrite app_nth2 by (unfold len in Hi; lia). f_equal. unfold len. lia.
Qed.

Lemma readColumns_short f : forall cs0 cs off s, Forall (fun c => co_blockSize c < 2 ^ 32 /\ co_antennas c < 2 ^ 32) cs ->
  length cs0 = length cs -> prefix_at f off (concat (map SerializeColumn cs)) ->
  fsize f < off + len (concat (map SerializeColumn cs)) -> off <= fsize f ->
  ifail (snd (readColumns f off cs0 s)) = true.
Proof.
  induction cs0 as [|c0 cs0 IH]; intros [|c cs] off s F L H S1 S2; try discriminate; cbn [readColumns].
  - cbn in S1. lia.
  - inversion F as [|? ? (Hb & Ha) F']; subst. cbn [map concat] in H, S1.
    apply prefix_app in H. destruct H as (H & Ht). unfold iseek.
    change (len (SerializeColumn c)) with 12 in Ht.
    assert (S1' : fsize f < off + 12 + len (concat (map SerializeColumn cs))).
    { rewrite len_app in S1. change (len (SerializeColumn c)) with 12 in S1. lia. }
    destruct (ifail s) eqn:Fs.
    { assert (X : forall n s, ifail s = true -> ifail (snd (iread_int f n s)) = true).
      { intros n s0 H0. rewrite iread_int_adv, adv_fail; trivial. }
      pose proof (X 4%nat s Fs) as H1. destruct (iread_int f 4 s) as (a & s1). cbn [snd] in H1.
      pose proof (X 4%nat s1 H1) as H2. destruct (iread_int f 4 s1) as (b & s2). cbn [snd] in H2.
      pose proof (X 4%nat s2 H2) as H3. destruct (iread_int f 4 s2) as (d & s3). cbn [snd] in H3.
      pose proof (readColumns_failed f cs0 (off + match a with Some h => h | None => 0 end) s3 H3) as H4.
      destruct (readColumns f _ cs0 s3) as (t & s4). exact H4. }
    unfold SerializeColumn in H. apply prefix_app in H. destruct H as (H & _).
    rewrite (iread_int_at f 4 (IStream off false) 12); [|reflexivity|intros i Hi Hs; exact (H i Hi Hs)|reflexivity].
    cbn [ipos]. change (N.of_nat 4) with 4.
    destruct (N.leb_spec (off + 4) (fsize f)) as [L1|L1].
    + assert (R : reach f (off + 4) (IStream (off + 4) false)) by (right; now split).
      do 2 open_int R. destruct R as [(R & _)|(-> & R)].
      * pose proof (readColumns_failed f cs0 (off + 12) s1 R) as H4.
        destruct (readColumns f _ cs0 s1) as (t & s4). exact H4.
      * change (off + 4 + N.of_nat 4 + N.of_nat 4) with (off + 4 + 4 + 4) in *.
        pose proof (IH cs (off + 12) (IStream (off + 4 + 4 + 4) false) F' ltac:(injection L; auto) Ht S1' ltac:(lia)) as H4.
        destruct (readColumns f _ cs0 _) as (t & s4). exact H4.
    + assert (X : forall n s, ifail s = true -> ifail (snd (iread_int f n s)) = true).
      { intros n s0 H0. rewrite iread_int_adv, adv_fail; trivial. }
      pose proof (X 4%nat (IStream (fsize f) true) eq_refl) as H2. destruct (iread_int f 4 (IStream (fsize f) true)) as (b & s2). cbn [snd] in H2.
      pose proof (X 4%nat s2 H2) as H3. destruct (iread_int f 4 s2) as (d & s3). cbn [snd] in H3.
      pose proof (readColumns_failed f cs0 (off + 0) s3 H3) as H4.
      destruct (readColumns f _ cs0 s3) as (t & s4). exact H4.
Qed.

Lemma at_prefix f off bs : at_ f off bs -> prefix_at f off bs.
Proof.
  intros (L & E) i Hi Hs. rewrite <- E at 1. unfold bytes.
  rewrite (nth_indep _ 0 (fbyte f (off + N.of_nat 0))) by (rewrite map_length, seq_length; unfold len in Hi; lia).
  rewrite (map_nth (fun k => fbyte f (off + N.of_nat k)) (seq 0 (length bs)) 0%nat), seq_nth by (unfold len in Hi; lia).
  f_equal. lia.
Qed.

Lemma prefix_truncate f n off bs : prefix_at f off bs -> prefix_at (ftruncate f n) off bs.
Proof. intros H i Hi Hs. cbn [ftruncate fsize fbyte] in *. apply H; lia. Qed.

Lemma prefix_full f off bs : prefix_at f off bs -> off + len bs <= fsize f -> at_ f off bs.
Proof.
  intros H L. split; trivial.
  apply nth_ext with (d := 0) (d' := 0); [apply bytes_length|].
  intros k Hk. rewrite bytes_length in Hk. unfold bytes.
  rewrite (nth_indep _ 0 (fbyte f (off + N.of_nat 0))) by (rewrite map_length, seq_length; lia).
  rewrite (map_nth (fun k => fbyte f (off + N.of_nat k)) (seq 0 (length bs)) 0%nat k), seq_nth by lia.
  cbn [Nat.add]. rewrite H by (unfold len in *; lia). f_equal. lia.
Qed.

(** ** Truncated headers *)
Lemma truncated_header m m0 n nrow : storable m -> length (columns m0) = length (columns m) ->
  fil m0 = ftruncate (fil (writeHeader m)) n -> 16 <= n < len (header_bytes m) -> openMan nrow m0 = Throw.
Proof.
  intros St L E Hn. pose proof (written m) as W.
  assert (Sz : fsize (fil m0) = n).
  { rewrite E. cbn [ftruncate fsize]. destruct W as (W & _). lia. }
  assert (P : prefix_at (fil m0) 0 (header_bytes m)) by (rewrite E; apply prefix_truncate, at_prefix, W).
  unfold openMan, readHeader. change (fil (set_nRow m0 nrow)) with (fil m0). change (columns (set_nRow m0 nrow)) with (columns m0).
  unfold header_bytes in P. apply prefix_app in P. destruct P as (P1 & P2).
  pose proof (fits_header m St) as Fi.
  assert (A : at_ (fil m0) 12 (le 4 (len (name m)))).
  { apply prefix_full; [|rewrite len_le; cbn; lia].
    unfold SerializeHeader in P1. do 3 (apply prefix_app in P1; destruct P1 as (_ & P1); rewrite len_le in P1).
    apply prefix_app in P1. exact (proj1 P1). }
  destruct (unserialize_stream (fil m0) (len (name m)) A ltac:(destruct St; lia)) as (h & s & U & R).
  destruct R as [(R & _)|(-> & R)].
  - rewrite U. cbn [bind]. now rewrite R.
  - assert (A1 : at_ (fil m0) 0 (SerializeHeader (header_of m))).
    { apply prefix_full; trivial. rewrite SerializeHeader_len. cbn [smName header_of]. lia. }
    rewrite (unserialize_ok _ _ Fi A1). cbn [bind ifail raw_of use r_headerSize r_columnHeaderOffset r_columnCount r_name r_rowsPerBlock r_antennaCount r_blockSize r_versionMajor r_versionMinor r_dataBitCount r_weightBitCount r_distribution r_normalization r_studentTNu r_truncation].
    cbn [versionMajor versionMinor header_of N.eqb Pos.eqb andb negb columnCount].
    rewrite L, N.eqb_refl. cbn [negb].
    pose proof (readColumns_short (fil m0) (columns m0) (columns m) (columnHeaderOffset (header_of m)) (IStream (52 + len (smName (header_of m))) false) (st_cols _ St) L) as X.
    cbn [columnHeaderOffset header_of smName] in *. rewrite colOffset_eq in *.
    rewrite SerializeHeader_len in P2. cbn [smName header_of] in P2.
    pose proof (header_bytes_len m). rewrite columns_len in X.
    destruct (readColumns _ _ _ _) as (cs & s). cbn [snd] in X.
    cbn [bind]. rewrite X; trivial; lia.
Qed.

Lemma truncated_short m0 n nrow f : fil m0 = ftruncate f n -> n < 16 -> openMan nrow m0 = UB.
Proof.
  intros E Hn. unfold openMan, readHeader. change (fil (set_nRow m0 nrow)) with (fil m0).
  rewrite unserialize_short; trivial. rewrite E. cbn [ftruncate fsize]. lia.
Qed.
