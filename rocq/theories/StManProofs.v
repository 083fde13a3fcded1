(** Lemmas about the storage manager file. *)
From Verif Require Import Base BaseLemmas BytePacker File FileProofs StMan StManSpec HeaderProofs.
Local Open Scope N_scope.

(** ** Header and data *)

Lemma header_fits m : storable m -> len (header_bytes m) <= hdrSize (writeHeader m).
Proof.
  intros H. cbn [writeHeader set_file hdrSize set_hdrSize]. rewrite (headerSize_eq m H), header_bytes_len. lia.
Qed.

Lemma writeHeader_keeps m i : storable m -> hdrSize (writeHeader m) <= i < fsize (fil m) ->
  fbyte (fil (writeHeader m)) i = fbyte (fil m) i.
Proof.
  intros H Hi. pose proof (header_fits m H). cbn [writeHeader set_file fil set_hdrSize]. apply fbyte_fwrite_other; lia.
Qed.

Lemma fsize_writeHeader m : fsize (fil (writeHeader m)) = N.max (fsize (fil m)) (len (header_bytes m)).
Proof. cbn [writeHeader set_file fil set_hdrSize]. rewrite fsize_fwrite by apply header_bytes_ne. now rewrite N.add_0_l. Qed.

Lemma writeCompressed_fil m b c d : fil (writeCompressedData m b c d) = fwrite (fil m) (blockSize m * b + hdrSize m + co_offset c) d.
Proof. unfold writeCompressedData. now destruct (nBlocksInFile m <=? b). Qed.

Lemma writeCompressed_keeps_header m b c d i : i < hdrSize m -> i < fsize (fil m) ->
  fbyte (fil (writeCompressedData m b c d)) i = fbyte (fil m) i.
Proof. intros H1 H2. rewrite writeCompressed_fil. apply fbyte_fwrite_other; lia. Qed.


Lemma write1_settings m w : rowsPerBlock (write1 m w) = rowsPerBlock m /\ blockSize (write1 m w) = blockSize m /\ hdrSize (write1 m w) = hdrSize m /\ columns (write1 m w) = columns m.
Proof. destruct w as ((b & c) & d). unfold write1, writeCompressedData. now destruct (_ <=? _). Qed.

Lemma writes_settings ws : forall m, rowsPerBlock (writes m ws) = rowsPerBlock m /\ blockSize (writes m ws) = blockSize m /\ hdrSize (writes m ws) = hdrSize m /\ columns (writes m ws) = columns m.
Proof.
  unfold writes. induction ws as [|w ws IH]; intros m; cbn [fold_left]; [easy|].
  destruct (IH (write1 m w)) as (-> & -> & -> & ->). apply write1_settings.
Qed.

Lemma writes_at ws : forall m bs, at_ (fil m) 0 bs -> len bs <= hdrSize m -> at_ (fil (writes m ws)) 0 bs.
Proof.
  unfold writes. induction ws as [|w ws IH]; intros m bs A L; cbn [fold_left]; trivial.
  apply IH.
  - destruct w as ((b & c) & d). cbn [write1]. rewrite writeCompressed_fil. apply at_fwrite_other; trivial. left. lia.
  - now rewrite (proj1 (proj2 (proj2 (write1_settings m w)))).
Qed.

(** the header can be read back after any writes *)
Lemma header_roundtrip_writes m m0 ws : storable m -> length (columns m0) = length (columns m) ->
  fil m0 = fil (writes (writeHeader m) ws) ->
  exists m' s, readHeader m0 = Ok (m', s) /\ ifail s = false /\ same_settings (writeHeader m) m' /\
    fil m' = fil m0 /\ nRow m' = nRow m0 /\ nBlocksInFile m' = nBlocksInFile m0 /\
    Forall2 (fun c c' => co_kind c' = co_kind c /\ co_nPol c' = co_nPol c /\ co_nChan c' = co_nChan c /\ co_bits c' = co_bits c /\ co_offset c' = co_offset c)
      (columns m0) (columns m').
Proof.
  intros St L E. apply header_roundtrip_at; trivial. rewrite E. apply writes_at; [apply written|]. now apply header_fits.
Qed.

(** ** Regions *)


Lemma place_ok nrow nant : forall cs off, off + total nrow nant cs < 2 ^ 32 ->
  let '(cs', t) := place nrow nant off cs in
  t = off + total nrow nant cs /\ length cs' = length cs /\
  (forall i c, nth_error cs' i = Some c -> off <= co_offset c /\ co_offset c + co_blockSize c <= t) /\
  (forall i j c c', (i < j)%nat -> nth_error cs' i = Some c -> nth_error cs' j = Some c' -> co_offset c + co_blockSize c <= co_offset c') /\
  (forall i c, nth_error cs i = Some c -> exists c', nth_error cs' i = Some c' /\ co_blockSize c' = CalculateBlockSize c nrow nant /\
     co_kind c' = co_kind c /\ co_nPol c' = co_nPol c /\ co_nChan c' = co_nChan c /\ co_bits c' = co_bits c /\ co_antennas c' = nant) /\
  (forall i c, S i = length cs -> nth_error cs' i = Some c -> co_offset c + co_blockSize c = t).
Proof.
  induction cs as [|c cs IH]; intros off H; cbn [place].
  - change (total nrow nant []) with 0 in *. split; [lia|]. split; [trivial|]. split; [intros [|i] ? E; discriminate|].
    split; [intros [|i] ? ? ? ? E; discriminate|]. split; [intros [|i] ? E; discriminate|discriminate].
  - cbn [total fold_right] in *. fold (total nrow nant cs) in *.
    unfold u32. rewrite N.mod_small by lia.
    specialize (IH (off + CalculateBlockSize c nrow nant) ltac:(lia)).
    destruct (place nrow nant _ cs) as (cs' & t). destruct IH as (Et & El & Hin & Hlt & Hs & Hl).
    split; [lia|]. split; [cbn [length]; lia|]. split; [|split; [|split]].
    + intros i d H0. destruct i; cbn [nth_error] in H0; [injection H0 as <-; cbn [co_offset co_blockSize]; lia|]. apply Hin in H0. lia.
    + intros i j d d' Hij Hi Hj. destruct j; [lia|]. cbn [nth_error] in Hj. destruct i; cbn [nth_error] in Hi.
      * injection Hi as <-. cbn [co_offset co_blockSize]. apply Hin in Hj. lia.
      * eapply (Hlt i j); eauto. lia.
    + intros i d Hi. destruct i; cbn [nth_error] in *.
      * injection Hi as <-. eexists. split; [reflexivity|]. now cbn.
      * now apply Hs.
    + intros i d Hi Hd. cbn [length] in Hi. destruct i; cbn [nth_error] in Hd.
      * injection Hd as <-. destruct cs; [|discriminate]. cbn [co_offset co_blockSize]. rewrite Et. change (total nrow nant []) with 0. lia.
      * apply (Hl i); trivial. lia.
Qed.

Lemma region_arith B h b b' o s o' : o + s <= B -> b < b' ->
  B * b + h + o + s <= B * b' + h + o'.
Proof. intros H1 H3. assert (B * (b + 1) <= B * b') by (apply N.mul_le_mono_l; lia). lia. Qed.

Lemma regions_disjoint m nrow nant w m' : initializeRowsPerBlock m nrow nant w = Ok m' ->
  nrow < 2 ^ 32 -> nant < 2 ^ 32 -> total nrow nant (columns m) < 2 ^ 32 ->
  forall b b' i j c c', nth_error (columns m') i = Some c -> nth_error (columns m') j = Some c' -> (b, i) <> (b', j) ->
  disjoint (region m' b c) (region m' b' c').
Proof.
  unfold initializeRowsPerBlock. destruct (_ && _)%bool; [discriminate|]. intros E Hr Ha Ht b b' i j c c' Hi Hj Hne.
  unfold u32 in E. rewrite !N.mod_small in E by trivial.
  pose proof (place_ok nrow nant (columns m) 0 Ht) as P. destruct (place nrow nant 0 (columns m)) as (cs & t).
  destruct P as (Et & El & Hin & Hlt & _ & Hlast).
  assert (X : columns m' = cs /\ blockSize m' = t) by (injection E as <-; destruct w; now split).
  destruct X as (Xc & Xb). rewrite Xc in Hi, Hj. unfold disjoint, region. rewrite Xb. cbn [fst snd].
  pose proof (Hin _ _ Hi) as (_ & Bi). pose proof (Hin _ _ Hj) as (_ & Bj).
  destruct (N.lt_trichotomy b b') as [L|[->|L]].
  - left. now apply region_arith.
  - destruct (Nat.lt_trichotomy i j) as [L|[->|L]]; [|congruence|].
    + left. pose proof (Hlt _ _ _ _ L Hi Hj). lia.
    + right. pose proof (Hlt _ _ _ _ L Hj Hi). lia.
  - right. now apply region_arith.
Qed.

(** the file as a store of blocks *)
Lemma read_write_same m b c d : len d = co_blockSize c -> d <> [] ->
  readCompressedData (writeCompressedData m b c d) b c (co_blockSize c) = Ok (Some d).
Proof.
  intros L Hd. unfold readCompressedData, getFileOffset.
  change (writeCompressedData m b c d) with (write1 m (b, c, d)).
  destruct (write1_settings m (b, c, d)) as (_ & -> & -> & _). cbn [write1]. rewrite writeCompressed_fil.
  destruct (at_fwrite (fil m) (blockSize m * b + hdrSize m + co_offset c) d Hd) as (A1 & A2).
  rewrite <- L, (proj2 (N.leb_le _ _) A1).
  replace (N.to_nat (len d)) with (length d) by (unfold len; lia). now rewrite A2.
Qed.

Lemma read_write_other m b c d b' c' d' : disjoint (region m b c) (region m b' c') -> len d <= co_blockSize c ->
  readCompressedData m b' c' (co_blockSize c') = Ok (Some d') ->
  readCompressedData (writeCompressedData m b c d) b' c' (co_blockSize c') = Ok (Some d').
Proof.
  intros D L R. unfold readCompressedData, getFileOffset in *.
  change (writeCompressedData m b c d) with (write1 m (b, c, d)).
  destruct (write1_settings m (b, c, d)) as (_ & -> & -> & _). cbn [write1]. rewrite writeCompressed_fil.
  destruct (N.leb_spec (blockSize m * b' + hdrSize m + co_offset c' + co_blockSize c') (fsize (fil m))) as [H|H].
  - injection R as R. pose proof (fsize_fwrite_le (fil m) (blockSize m * b + hdrSize m + co_offset c) d).
    rewrite (proj2 (N.leb_le _ _)) by lia. do 2 f_equal. rewrite <- R. apply bytes_ext. intros i Hi.
    apply fbyte_fwrite_other; unfold disjoint, region in D; cbn [fst snd] in D; lia.
  - destruct (_ =? _); discriminate.
Qed.

(** ** Reopening *)

Lemma write1_nBlocks m b c d : nBlocksInFile (write1 m (b, c, d)) = N.max (nBlocksInFile m) (b + 1).
Proof. unfold write1, writeCompressedData. destruct (N.leb_spec (nBlocksInFile m) b); cbn [nBlocksInFile set_file set_nBlocks]; lia. Qed.

(** the file size after writes *)
Lemma writes_fsize ws : forall m, Forall (fun w => snd w <> []) ws ->
  let f' := fsize (fil (writes m ws)) in
  let e w := blockSize m * fst (fst w) + hdrSize m + co_offset (snd (fst w)) + len (snd w) in
  fsize (fil m) <= f' /\ Forall (fun w => e w <= f') ws /\ (f' = fsize (fil m) \/ exists w, In w ws /\ f' = e w).
Proof.
  induction ws as [|w ws IH]; intros m F; cbn [writes fold_left]; cbv zeta.
  - split; [lia|]. split; [constructor|now left].
  - inversion F as [|? ? Fw F']; subst. fold (writes (write1 m w) ws).
    destruct (IH (write1 m w) F') as (H1 & H2 & H3). clear IH.
    destruct (write1_settings m w) as (_ & Eb & Eh & _). rewrite Eb, Eh in *.
    destruct w as ((b & c) & d). cbn [fst snd] in *. cbn [write1] in H1, H3 |- *.
    rewrite writeCompressed_fil in H1, H3. rewrite fsize_fwrite in H1, H3 by trivial.
    repeat split.
    + lia.
    + constructor; [cbn; lia|exact H2].
    + destruct H3 as [->|(w & Hw & ->)].
      * destruct (N.max_spec (fsize (fil m)) (blockSize m * b + hdrSize m + co_offset c + len d)) as [(? & ->)|(? & ->)]; [right|now left].
        exists (b, c, d). split; [now left|reflexivity].
      * right. exists w. split; [now right|reflexivity].
Qed.

Lemma div_range a b q : b <> 0 -> b * q <= a < b * (q + 1) -> a / b = q.
Proof. intros Hb H. symmetry. apply (N.div_unique a b q (a - b * q)); lia. Qed.

Lemma writes_nBlocks ws : forall m, nBlocksInFile (writes m ws) = fold_left (fun n w => N.max n (fst (fst w) + 1)) ws (nBlocksInFile m).
Proof.
  unfold writes. induction ws as [|((b & c) & d) ws IH]; intros m; cbn [fold_left]; trivial.
  rewrite IH, write1_nBlocks. reflexivity.
Qed.

Lemma fold_max_spec (ws : list (N * column * list N)) : forall n0, let r := fold_left (fun n w => N.max n (fst (fst w) + 1)) ws n0 in
  n0 <= r /\ Forall (fun w => fst (fst w) + 1 <= r) ws /\ (r = n0 \/ exists w, In w ws /\ r = fst (fst w) + 1).
Proof.
  induction ws as [|w ws IH]; intros n0; cbn [fold_left]; cbv zeta.
  - split; [lia|]. split; [constructor|now left].
  - destruct (IH (N.max n0 (fst (fst w) + 1))) as (H1 & H2 & H3). repeat split.
    + lia.
    + constructor; [lia|trivial].
    + destruct H3 as [->|(w' & Hw & ->)].
      * destruct (N.max_spec n0 (fst (fst w) + 1)) as [(? & ->)|(? & ->)]; [right|now left]. exists w. split; [now left|trivial].
      * right. exists w'. split; [now right|trivial].
Qed.

(** what the next open finds *)
Lemma reopen_blocks m nrow nant w k m1 ws m0 nr :
  initializeRowsPerBlock m nrow nant true = Ok m1 -> storable m1 ->
  nrow < 2 ^ 32 -> nant < 2 ^ 32 -> total nrow nant (columns m) < 2 ^ 32 ->
  nBlocksInFile m = 0 -> fsize (fil m) <= hdrSize m1 ->
  S k = length (columns m1) -> nth_error (columns m1) k = Some w -> 0 < co_blockSize w ->
  Forall (fun x => In (snd (fst x)) (columns m1) /\ len (snd x) = co_blockSize (snd (fst x)) /\ snd x <> []) ws ->
  ws <> [] ->
  length (columns m0) = length (columns m1) -> fil m0 = fil (writes m1 ws) ->
  exists m2, openMan nr m0 = Ok m2 /\ same_settings m1 m2 /\ nRow m2 = nr /\
    ((exists d, In (nBlocksInFile (writes m1 ws) - 1, w, d) ws) -> nBlocksInFile m2 = nBlocksInFile (writes m1 ws)) /\
    (~ (exists d, In (nBlocksInFile (writes m1 ws) - 1, w, d) ws) -> nBlocksInFile m2 = nBlocksInFile (writes m1 ws) - 1).
Proof.
  intros I St Hr Ha Ht Hn Hf Hk Hw Hpos Fw Hne HL Hfil.
  unfold initializeRowsPerBlock in I. destruct (_ && _)%bool; [discriminate|].
  unfold u32 in I. rewrite !N.mod_small in I by trivial.
  pose proof (place_ok nrow nant (columns m) 0 Ht) as P. destruct (place nrow nant 0 (columns m)) as (cs & t).
  destruct P as (Et & El & Hin & Hlt & _ & Hlast). injection I as I.
  set (mg := set_geometry m nrow nant t cs) in *.
  assert (Xc : columns m1 = cs) by now rewrite <- I.
  assert (Xb : blockSize m1 = t) by now rewrite <- I.
  assert (Xn : nBlocksInFile m1 = 0) by now rewrite <- I.
  assert (Stg : storable mg) by (rewrite <- I in St; destruct St; constructor; trivial).
  assert (Xs : fsize (fil m1) <= hdrSize m1).
  { rewrite <- I. rewrite fsize_writeHeader. pose proof (header_fits mg Stg). rewrite <- I in Hf. change (fsize (fil mg)) with (fsize (fil m)). lia. }
  rewrite Xc in Hk, Hw.
  assert (Hall : co_offset w + co_blockSize w = t) by (apply (Hlast k); trivial; lia).
  assert (Hbefore : forall c, In c cs -> c <> w -> co_offset c + co_blockSize c <= co_offset w).
  { intros c Hc Ne. destruct (In_nth_error _ _ Hc) as (k' & Hk').
    assert (k' < length cs)%nat by (apply nth_error_Some; congruence).
    destruct (Nat.eq_dec k' k) as [->|]; [congruence|]. eapply (Hlt k' k); eauto. lia. }
  destruct (header_roundtrip_writes mg (set_nRow m0 nr) ws Stg) as (m2 & s & R & Fs & SS & Ff & Fn & Fb & _).
  { change (columns (set_nRow m0 nr)) with (columns m0). rewrite HL, Xc. reflexivity. }
  { change (fil (set_nRow m0 nr)) with (fil m0). rewrite Hfil, <- I. reflexivity. }
  rewrite I in SS.
  unfold openMan. rewrite R. cbn [bind]. rewrite Fs.
  assert (E2 : fil m2 = fil (writes m1 ws)) by (rewrite Ff; exact Hfil).
  destruct (writes_fsize ws m1) as (W1 & W2 & W3).
  { eapply Forall_impl; [|exact Fw]. now intros ? (_ & _ & ?). }
  rewrite E2. set (F := fsize (fil (writes m1 ws))) in *.
  assert (Eh : hdrSize m2 = hdrSize m1) by apply SS.
  assert (Ebs : blockSize m2 = t) by (rewrite <- Xb; apply SS).
  rewrite Eh, Ebs. rewrite Xb in W2, W3. rewrite Xc in Fw.
  pose proof (writes_nBlocks ws m1) as Nb. rewrite Xn in Nb.
  destruct (fold_max_spec ws 0) as (M1 & M2 & M3). rewrite <- Nb in M1, M2, M3. clear Nb. set (B := nBlocksInFile (writes m1 ws)) in *.
  assert (HB : exists x, In x ws /\ B = fst (fst x) + 1).
  { destruct M3 as [M3|M3]; trivial. destruct ws as [|x ws']; [easy|]. apply Forall_inv in M2. lia. }
  destruct HB as (x & Hx & HB).
  assert (Tt : t <> 0) by lia.
  rewrite Forall_forall in Fw, W2, M2.
  assert (Hlow : hdrSize m1 + t * (B - 1) + 1 <= F).
  { pose proof (W2 x Hx). destruct (Fw x Hx) as (_ & L & D).
    assert (0 < len (snd x)) by (destruct (snd x); [easy|unfold len; cbn [length]; lia]). replace (B - 1) with (fst (fst x)) by lia. lia. }
  assert (Hy : forall y, In y ws -> t * fst (fst y) + hdrSize m1 + co_offset (snd (fst y)) + len (snd y) <= hdrSize m1 + t * (B - 1) + (co_offset (snd (fst y)) + co_blockSize (snd (fst y)))).
  { intros y Iy. destruct (Fw y Iy) as (Ic & L & D). pose proof (M2 y Iy).
    assert (t * fst (fst y) <= t * (B - 1)) by (apply N.mul_le_mono_l; lia). lia. }
  assert (Hub : F <= hdrSize m1 + t * B).
  { destruct W3 as [W3|(y & Iy & W3)]; [lia|]. destruct (Fw y Iy) as (Ic & L & D).
    destruct (In_nth_error _ _ Ic) as (k' & Hk'). pose proof (Hin _ _ Hk') as (_ & Bk). pose proof (Hy y Iy).
    replace (t * B) with (t * (B - 1) + t) by (replace B with (B - 1 + 1) at 2 by lia; lia). lia. }
  assert (TB : t * B = t * (B - 1) + t) by (replace B with (B - 1 + 1) at 1 by lia; lia).
  rewrite (proj2 (N.ltb_lt _ _)) by lia. rewrite (proj2 (N.eqb_neq _ _) Tt).
  eexists. split; [reflexivity|]. split; [exact SS|]. split; [cbn [nRow set_nBlocks]; rewrite Fn; reflexivity|].
  cbn [nBlocksInFile set_nBlocks]. split.
  - intros (d & Hd). pose proof (W2 _ Hd) as Q. cbn [fst snd] in Q. destruct (Fw _ Hd) as (_ & L & _). cbn [fst snd] in L.
    apply div_range; trivial. lia.
  - intros Hno. apply div_range; trivial. split; [lia|]. replace (B - 1 + 1) with B by lia.
    destruct W3 as [W3|(y & Iy & W3)]; [lia|]. destruct (Fw y Iy) as (Ic & L & D).
    destruct (In_nth_error _ _ Ic) as (k' & Hk'). pose proof (Hin _ _ Hk') as (_ & Bk).
    pose proof (M2 y Iy) as My.
    destruct (N.eq_dec (fst (fst y)) (B - 1)) as [Eb|Nb].
    + assert (snd (fst y) <> w).
      { intros Ew. apply Hno. exists (snd y). rewrite <- Eb, <- Ew. now destruct y as ((? & ?) & ?). }
      pose proof (Hbefore _ Ic H). rewrite Eb in W3. lia.
    + assert (t * (fst (fst y) + 1) <= t * (B - 1)) by (apply N.mul_le_mono_l; lia). lia.
Qed.

(** ** Removing a column *)

Lemma removeColumn_geometry m i m' : storable m -> hdrSize m = hdrSize (writeHeader m) -> removeColumn m i = Ok m' ->
  hdrSize m' + 24 = hdrSize m /\ blockSize m' = blockSize m /\ nBlocksInFile m' = nBlocksInFile m /\
  columns m' = firstn i (columns m) ++ skipn (S i) (columns m).
Proof.
  intros St Hh. unfold removeColumn. destruct (Nat.ltb_spec i (length (columns m))) as [L|]; [|discriminate].
  assert (Lr : S (length (firstn i (columns m) ++ skipn (S i) (columns m))) = length (columns m)) by (rewrite app_length, firstn_length, skipn_length; lia).
  set (cs := firstn i (columns m) ++ skipn (S i) (columns m)) in *. clearbody cs.
  intros E. injection E as <-. repeat split.
  rewrite Hh. cbn [writeHeader set_file hdrSize set_hdrSize name columns set_columns].
  rewrite (headerSize_eq m St). unfold headerSize_of, u32. rewrite colOffset_eq. unfold sizeof_GenericColumnHeader, ExtraHeaderSize.
  destruct St as [S0 _ _ _ _ _ _ _ _ _ _]. rewrite N.mod_small; lia.
Qed.

Lemma removeColumn_reads m i m' b c : storable m -> hdrSize m = hdrSize (writeHeader m) -> removeColumn m i = Ok m' ->
  region m' b c = (fst (region m b c) - 24, snd (region m b c)).
Proof.
  intros St Hh R. destruct (removeColumn_geometry m i m' St Hh R) as (E1 & E2 & _). unfold region. rewrite E2. cbn [fst snd]. f_equal. lia.
Qed.

(** every byte of data read for the remaining columns is the one 24 positions before *)
Lemma removeColumn_bytes m i m' b c d' : storable m -> hdrSize m = hdrSize (writeHeader m) -> removeColumn m i = Ok m' ->
  readCompressedData m' b c (co_blockSize c) = Ok (Some d') -> fsize (fil m) >= hdrSize m ->
  d' = bytes (fil m) (fst (region m b c) - 24) (N.to_nat (co_blockSize c)).
Proof.
  intros St Hh R Rd Sz. destruct (removeColumn_geometry m i m' St Hh R) as (E1 & E2 & E3 & E4).
  unfold readCompressedData, getFileOffset in Rd. destruct (N.leb_spec (blockSize m' * b + hdrSize m' + co_offset c + co_blockSize c) (fsize (fil m'))) as [L|L].
  2: { destruct (_ =? _); discriminate. }
  injection Rd as <-. unfold region. cbn [fst]. rewrite <- E2.
  replace (blockSize m' * b + hdrSize m + co_offset c - 24) with (blockSize m' * b + hdrSize m' + co_offset c) by lia.
  unfold removeColumn in R. destruct (Nat.ltb_spec i (length (columns m))) as [Li|]; [|discriminate].
  assert (Lr : S (length (firstn i (columns m) ++ skipn (S i) (columns m))) = length (columns m)) by (rewrite app_length, firstn_length, skipn_length; lia).
  assert (Fr : Forall (fun c => co_blockSize c < 2 ^ 32 /\ co_antennas c < 2 ^ 32) (firstn i (columns m) ++ skipn (S i) (columns m))).
  { pose proof (st_cols _ St) as Fc. rewrite Forall_forall in *. intros x Hx. apply Fc. rewrite <- (firstn_skipn i (columns m)).
    apply in_app_or in Hx. apply in_or_app. destruct Hx as [Hx|Hx]; [now left|right].
    clear - Hx. revert Hx. generalize (columns m). induction i as [|i IH]; intros [|y l] H; try (now destruct H); [now right|]. now apply IH. }
  set (cs := firstn i (columns m) ++ skipn (S i) (columns m)) in *. clearbody cs.
  injection R as R. set (mc := set_columns m cs) in *.
  assert (Stc : storable mc).
  { subst mc. destruct St as [S0 ? ? ? ? ? ? ? ? ? S1]. constructor; cbn [name columns set_columns rowsPerBlock antennaCount blockSize dataBitCount weightBitCount distribution normalization studentTNu truncation]; trivial.
    lia. }
  assert (Fs : fsize (fil m') = fsize (fil m)).
  { rewrite <- R. rewrite fsize_writeHeader. pose proof (header_fits mc Stc). rewrite R in H. change (fsize (fil mc)) with (fsize (fil m)). lia. }
  apply bytes_ext. intros j Hj. rewrite <- R. rewrite writeHeader_keeps; trivial. rewrite R. change (fil mc) with (fil m). lia.
Qed.

(** ** Rows *)
Lemma row_block_bijection m row : rowsPerBlock m <> 0 -> forall b r,
  getBlockIndex m row = Ok b /\ getRowWithinBlock m row = Ok r <-> r < rowsPerBlock m /\ row = getRowIndex m b + r.
Proof.
  intros H b r. unfold getBlockIndex, getRowWithinBlock, getRowIndex. rewrite (proj2 (N.eqb_neq _ _) H). split.
  - intros (E1 & E2). injection E1 as <-. injection E2 as <-. split; [now apply N.mod_upper_bound|]. rewrite N.mul_comm. now apply N.div_mod.
  - intros (L & ->). rewrite N.mul_comm. rewrite <- (N.div_unique (rowsPerBlock m * b + r) (rowsPerBlock m) b r L eq_refl).
    rewrite <- (N.mod_unique (rowsPerBlock m * b + r) (rowsPerBlock m) b r L eq_refl). now split.
Qed.

Lemma row_ops os : forall m, nRow m < 2 ^ 63 ->
  Forall (fun o => match o with AddRows k => k < 2 ^ 32 | RemoveRow r => r < 2 ^ 32 end) os ->
  nRow m + 2 ^ 32 * N.of_nat (length os) < 2 ^ 63 ->
  run_man m os = run_table (nRow m) os.
Proof.
  induction os as [|o os IH]; intros m H F L; cbn [run_man run_table]; trivial.
  inversion F as [|? ? Fo F']; subst. cbn [length] in L. rewrite Nat2N.inj_succ in L.
  destruct o as [k|r]; cbn [do_row_op table_rows].
  - assert (E : nRow (addRow m k) = nRow m + k) by (cbn [addRow set_nRow nRow]; apply N.mod_small; lia).
    rewrite IH; rewrite ?E; trivial; lia.
  - unfold removeRow. destruct (N.ltb_spec 0 (nRow m)) as [P|P].
    + replace ((nRow m + (2 ^ 64 - 1)) mod 2 ^ 64) with (nRow m - 1).
      2: { replace (nRow m + (2 ^ 64 - 1)) with (nRow m - 1 + 1 * 2 ^ 64) by lia. rewrite N.mod_add by lia. rewrite N.mod_small; lia. }
      cbn [andb]. destruct (r =? nRow m - 1); cbn [negb]; trivial. rewrite IH; cbn [set_nRow nRow]; trivial; lia.
    + replace (nRow m) with 0 by lia. cbn [andb]. rewrite N.mod_small by lia.
      destruct (N.eqb_spec r (0 + (2 ^ 64 - 1))); [lia|]. reflexivity.
Qed.

(** ** Layout *)
Lemma layout m i c : nth_error (columns m) i = Some c ->
  bytes (fil (writeHeader m)) 4 4 = le 4 (52 + len (name m)) /\
  bytes (fil (writeHeader m)) (52 + len (name m) + 12 * N.of_nat i) 12 = le 4 12 ++ le 4 (co_blockSize c) ++ le 4 (co_antennas c).
Proof.
  intros Hc. pose proof (written m) as W. unfold header_bytes in W. apply at_app in W. destruct W as (W1 & W2). split.
  - unfold SerializeHeader in W1. apply at_app in W1. destruct W1 as (_ & W1). rewrite len_le in W1.
    apply at_app in W1. destruct W1 as ((_ & W1) & _). rewrite le_length in W1. cbn [columnHeaderOffset header_of] in W1.
    rewrite colOffset_eq in W1. exact W1.
  - rewrite SerializeHeader_len in W2. cbn [smName header_of] in W2.
    assert (X : forall cs i c off, nth_error cs i = Some c -> at_ (fil (writeHeader m)) off (concat (map SerializeColumn cs)) ->
      at_ (fil (writeHeader m)) (off + 12 * N.of_nat i) (SerializeColumn c)).
    { clear. induction cs as [|d cs IH]; intros [|i] c off E A; try discriminate; cbn [map concat nth_error] in *; apply at_app in A; destruct A as (A1 & A2).
      - injection E as <-. now rewrite N.mul_0_r, N.add_0_r.
      - change (len (SerializeColumn d)) with 12 in A2. pose proof (IH i c _ E A2) as Q.
        replace (off + 12 * N.of_nat (S i)) with (off + 12 + 12 * N.of_nat i) by lia. exact Q. }
    destruct (X _ _ _ _ Hc W2) as (_ & Q). exact Q.
Qed.

(** ** Overflow of the 32-bit block size *)
Definition wide_column : column := Column KWeight 4 4096 8 0 0 0.
Definition wide_man : stman := StMan 0 0 0 0 0 100 empty_file [] 8 8 0 0 0 0 [wide_column; wide_column].

(** ** removeColumn witness *)
Definition narrow_column : column := Column KWeight 4 1 8 0 0 0.
Definition narrow_man : stman := StMan 2 0 0 0 0 0 empty_file [77; 83] 8 8 0 0 0 0 [narrow_column; narrow_column].

Lemma rows_consecutive m row : rowsPerBlock m <> 0 -> exists b r b' r',
  getBlockIndex m row = Ok b /\ getRowWithinBlock m row = Ok r /\
  getBlockIndex m (row + 1) = Ok b' /\ getRowWithinBlock m (row + 1) = Ok r' /\
  ((b' = b /\ r' = r + 1) \/ (b' = b + 1 /\ r' = 0 /\ r + 1 = rowsPerBlock m)).
Proof.
  intros H. set (b := row / rowsPerBlock m). set (r := row mod rowsPerBlock m).
  assert (Hr : r < rowsPerBlock m) by (now apply N.mod_upper_bound).
  assert (E : row = rowsPerBlock m * b + r) by (now apply N.div_mod).
  assert (Q : getBlockIndex m row = Ok b /\ getRowWithinBlock m row = Ok r).
  { apply row_block_bijection; trivial. split; trivial. unfold getRowIndex. lia. }
  destruct Q as (Q1 & Q2).
  destruct (N.eq_dec (r + 1) (rowsPerBlock m)) as [L|L].
  - assert (Q : getBlockIndex m (row + 1) = Ok (b + 1) /\ getRowWithinBlock m (row + 1) = Ok 0).
    { apply row_block_bijection; trivial. split; [lia|]. unfold getRowIndex. lia. }
    exists b, r, (b + 1), 0. repeat split; tauto.
  - assert (Q : getBlockIndex m (row + 1) = Ok b /\ getRowWithinBlock m (row + 1) = Ok (r + 1)).
    { apply row_block_bijection; trivial. split; [lia|]. unfold getRowIndex. lia. }
    exists b, r, b, (r + 1). repeat split; tauto.
Qed.

Lemma blocks_written ws m : nBlocksInFile m = 0 ->
  (forall b c d, In (b, c, d) ws -> b < nBlocksInFile (writes m ws)) /\
  (ws <> [] -> exists b c d, In (b, c, d) ws /\ nBlocksInFile (writes m ws) = b + 1).
Proof.
  intros H. rewrite writes_nBlocks, H. destruct (fold_max_spec ws 0) as (_ & M2 & M3). rewrite Forall_forall in M2. split.
  - intros b c d Hb. specialize (M2 _ Hb). cbn [fst] in M2. lia.
  - intros Hne. destruct M3 as [M3|(((b & c) & d) & Hw & E)].
    + destruct ws as [|x ws]; [easy|]. specialize (M2 x (or_introl eq_refl)). lia.
    + exists b, c, d. now split.
Qed.

(** ** Reopening gives the same geometry *)

Lemma place_shape nrow nant : forall cs cs' off,
  Forall2 (fun c c' => co_kind c' = co_kind c /\ co_nPol c' = co_nPol c /\ co_nChan c' = co_nChan c /\ co_bits c' = co_bits c) cs cs' ->
  place nrow nant off cs' = place nrow nant off cs.
Proof.
  intros cs cs' off H. revert off. induction H as [|c c' cs cs' (E1 & E2 & E3 & E4) H IH]; intros off; cbn [place]; trivial.
  unfold CalculateBlockSize. rewrite E1, E2, E3, E4. rewrite IH. reflexivity.
Qed.

Lemma Forall2_map_l {A B C} (P : B -> C -> Prop) (f : A -> B) l l' : Forall2 P (map f l) l' <-> Forall2 (fun a c => P (f a) c) l l'.
Proof.
  revert l'. induction l as [|a l IH]; intros [|c l']; cbn [map]; split; intros H; inversion H; subst; constructor; trivial; now apply IH.
Qed.
Lemma Forall2_map_r {A B C} (P : A -> C -> Prop) (f : B -> C) l l' : Forall2 P l (map f l') <-> Forall2 (fun a b => P a (f b)) l l'.
Proof.
  revert l'. induction l as [|a l IH]; intros [|c l']; cbn [map]; split; intros H; inversion H; subst; constructor; trivial; now apply IH.
Qed.

Lemma Forall2_impl' {A B} (P Q : A -> B -> Prop) l l' : (forall a b, P a b -> Q a b) -> Forall2 P l l' -> Forall2 Q l l'.
Proof. intros H F. induction F; constructor; auto. Qed.

Lemma Forall2_trans3 {A B C} (P : A -> B -> Prop) (Q : B -> C -> Prop) (R : A -> C -> Prop) l1 l2 l3 :
  (forall a b c, P a b -> Q b c -> R a c) -> Forall2 P l1 l2 -> Forall2 Q l2 l3 -> Forall2 R l1 l3.
Proof.
  intros H F1. revert l3. induction F1; intros l3 F2; inversion F2; subst; constructor; eauto.
Qed.

Lemma reopen_geometry m nrow nant w k m1 ws m0 nr :
  initializeRowsPerBlock m nrow nant true = Ok m1 -> storable m1 ->
  0 < nrow < 2 ^ 32 -> nant < 2 ^ 32 -> total nrow nant (columns m) < 2 ^ 32 ->
  nBlocksInFile m = 0 -> fsize (fil m) <= hdrSize m1 ->
  S k = length (columns m1) -> nth_error (columns m1) k = Some w -> 0 < co_blockSize w ->
  Forall (fun x => In (snd (fst x)) (columns m1) /\ len (snd x) = co_blockSize (snd (fst x)) /\ snd x <> []) ws ->
  ws <> [] ->
  dataBitCount m <> 0 -> weightBitCount m <> 0 -> columns m = map (set_bits m) (columns m) ->
  Forall2 (fun c c0 => co_kind c0 = co_kind c /\ co_nPol c0 = co_nPol c /\ co_nChan c0 = co_nChan c) (columns m) (columns m0) ->
  fil m0 = fil (writes m1 ws) ->
  exists m2 m3, openMan nr m0 = Ok m2 /\ prepareMan m2 = Ok m3 /\ same_settings m1 m3 /\ columns m3 = columns m1 /\
    fil m3 = fil m0 /\ nBlocksInFile m3 = nBlocksInFile m2 /\
    forall b c size d, readCompressedData (writes m1 ws) b c size = Ok (Some d) -> readCompressedData m3 b c size = Ok (Some d).
Proof.
  intros I St Hr Ha Ht Hn Hf Hk Hw Hpos Fw Hne Hd Hwb Hbits Hshape Hfil.
  assert (X : exists cs t, place nrow nant 0 (columns m) = (cs, t) /\ m1 = writeHeader (set_geometry m nrow nant t cs) /\ length cs = length (columns m)).
  { unfold initializeRowsPerBlock in I. destruct (_ && _)%bool; [discriminate|].
    unfold u32 in I. rewrite !N.mod_small in I by lia.
    pose proof (place_ok nrow nant (columns m) 0 Ht) as P.
    destruct (place nrow nant 0 (columns m)) as (cs & t). injection I as I. exists cs, t. split; trivial. split; [easy|apply P]. }
  destruct X as (cs & t & Pl & Em1 & Lcs).
  assert (Xc : columns m1 = cs) by now rewrite Em1.
  assert (L0 : length (columns m0) = length (columns m1)) by (rewrite Xc, Lcs; apply (Forall2_len _ _ _ Hshape)).
  destruct (reopen_blocks m nrow nant w k m1 ws m0 nr I St ltac:(lia) Ha Ht Hn Hf Hk Hw Hpos Fw Hne L0 Hfil) as (m2 & O & SS & _ & _).
  assert (Sh2 : Forall2 (fun c c' => co_kind c' = co_kind c /\ co_nPol c' = co_nPol c /\ co_nChan c' = co_nChan c) (columns m0) (columns m2) /\ fil m2 = fil m0).
  { assert (Stg : storable (set_geometry m nrow nant t cs)) by (rewrite Em1 in St; destruct St; constructor; trivial).
    destruct (header_roundtrip_writes _ (set_nRow m0 nr) ws Stg) as (m2' & s & R & Fs & _ & Ff & _ & _ & F2).
    { change (columns (set_nRow m0 nr)) with (columns m0). rewrite L0, Em1. reflexivity. }
    { change (fil (set_nRow m0 nr)) with (fil m0). rewrite Hfil, Em1. reflexivity. }
    unfold openMan in O. rewrite R in O. cbn [bind] in O. rewrite Fs in O.
    assert (Y : columns m2 = columns m2' /\ fil m2 = fil m2').
    { destruct (_ <? _); [destruct (_ =? _); [discriminate|]|]; injection O as <-; now split. }
    destruct Y as (-> & ->). split; trivial. eapply Forall2_impl'; [|exact F2]. now intros ? ? (? & ? & ? & _). }
  destruct Sh2 as (Sh2 & Ff2).
  assert (SSx := SS). destruct SS as (S1 & S2 & S3 & S4 & S5 & S6 & S7 & S8 & S9 & S10 & S11 & S12).
  assert (Db : dataBitCount m2 = dataBitCount m) by (rewrite S6, Em1; reflexivity).
  assert (Wb : weightBitCount m2 = weightBitCount m) by (rewrite S7, Em1; reflexivity).
  assert (Rb : rowsPerBlock m2 = nrow) by (rewrite S1, Em1; reflexivity).
  assert (Ab : antennaCount m2 = nant) by (rewrite S2, Em1; reflexivity).
  set (m2' := set_columns m2 (map (set_bits m2) (columns m2))).
  assert (Sh : Forall2 (fun c c' => co_kind c' = co_kind c /\ co_nPol c' = co_nPol c /\ co_nChan c' = co_nChan c /\ co_bits c' = co_bits c) (columns m) (columns m2')).
  { subst m2'. cbn [columns set_columns]. rewrite Hbits. apply Forall2_map_l, Forall2_map_r.
    eapply Forall2_trans3; [|exact Hshape|exact Sh2]. intros a b c (A1 & A2 & A3) (B1 & B2 & B3). unfold set_bits. cbn [co_kind co_nPol co_nChan co_bits].
    rewrite Db, Wb, B1, A1, B2, A2, B3, A3. repeat split. }
  assert (P3 : prepareMan m2 = Ok (set_geometry m2' nrow nant t cs)).
  { unfold prepareMan. rewrite Db, Wb. rewrite (proj2 (N.eqb_neq _ _) Hd), (proj2 (N.eqb_neq _ _) Hwb). cbn [orb]. cbv zeta. fold m2'.
    unfold areOffsetsInitialized. change (rowsPerBlock m2') with (rowsPerBlock m2). rewrite Rb.
    rewrite (proj2 (N.eqb_neq nrow 0)) by lia. cbn [negb]. unfold initializeRowsPerBlock.
    change (rowsPerBlock m2') with (rowsPerBlock m2). change (antennaCount m2') with (antennaCount m2). rewrite Rb, Ab, !N.eqb_refl. cbn [andb negb]. rewrite Bool.andb_false_r.
    unfold u32. rewrite !N.mod_small by lia. rewrite (place_shape nrow nant (columns m)) by exact Sh. rewrite Pl. reflexivity. }
  exists m2, (set_geometry m2' nrow nant t cs). split; [exact O|]. split; [exact P3|]. split.
  { unfold same_settings. subst m2'. cbn [set_geometry set_columns rowsPerBlock antennaCount blockSize hdrSize name dataBitCount weightBitCount distribution normalization studentTNu truncation columns].
    rewrite S4, S5, S6, S7, S8, S9, S10, S11, Em1.
    repeat (split; [reflexivity|]).
    cbn [writeHeader set_file set_hdrSize columns set_geometry]. clear. induction cs; constructor; auto. }
  split; [now rewrite Xc|]. split; [exact Ff2|]. split; [reflexivity|].
  intros b c size d R. unfold readCompressedData, getFileOffset in *.
  destruct (writes_settings ws m1) as (_ & Eb & Eh & _). rewrite Eb, Eh in R.
  subst m2'. cbn [set_geometry set_columns fil blockSize hdrSize nBlocksInFile]. rewrite Ff2, Hfil, S4.
  replace (blockSize m1) with t in R by (rewrite Em1; reflexivity).
  destruct (_ <=? _); [exact R|]. destruct (_ =? _); discriminate.
Qed.

Lemma new_file_ub nr nr' m m0 : fil m0 = fil (createMan nr' m) -> openMan nr m0 = UB.
Proof. intros E. apply (truncated_short m0 0 nr empty_file); [|lia]. rewrite E. reflexivity. Qed.
