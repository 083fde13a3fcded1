(** The Row and RF encoders in functional form.  Proof file. *)
From Verif Require Import Base BaseLemmas Floats TimeBlockBuffer StochasticEncoder EncSpec StochasticEncoderProofs TimeBlockEncoders TbeSpec TbeLoops.

Lemma upd_same_list {A} (l : list A) i a x : nth_error l i = Some x -> x = a -> upd l i a = l.
Proof.
  intros E ->. apply nth_error_ext. intros j. destruct (Nat.eq_dec i j) as [->|Q]; [|now apply upd_diff].
  rewrite upd_same; [congruence|eapply nth_lt; eauto].
Qed.

Lemma convert_rows n (b : tbb cf) : rows_of n b -> rows_of n (ConvertVector widen b).
Proof.
  intros H r I. unfold ConvertVector in I. apply in_map_iff in I. destruct I as (r0 & <- & I). cbn. rewrite map_length. now apply H.
Qed.

Lemma rows_map {A B} n (f : drow A -> drow B) data : rows_of n data ->
  (forall r, length (visibilities r) = n -> length (visibilities (f r)) = n) -> rows_of n (map f data).
Proof. intros H F r I. apply in_map_iff in I. destruct I as (r0 & <- & I). apply F. now apply H. Qed.

(** ** Row *)
Definition row_M (row : drow cd) : f64 := maxf (map component (visibilities row)).
Definition row_scaled (L : f64) (row : drow cd) : drow cd :=
  DRow (antenna1 row) (antenna2 row) (map (fun v => cmul v (row_factor L (row_M row))) (visibilities row)).

Lemma row_normalize_all n L data meta : rows_of n data -> length data <= length meta ->
  exists meta', foldM (row_normalize n L) (seq 0 (length data)) (data, meta) = Ok (map (row_scaled L) data, meta') /\
    length meta' = length meta /\
    (forall r row, nth_error data r = Some row -> nth_error meta' r = Some (to32 (div64 (row_M row) L))) /\
    (forall k, length data <= k -> nth_error meta' k = nth_error meta k).
Proof.
  intros R Hl.
  destruct (foldM_seq (row_normalize n L) (fun m st => length (fst st) = length data /\ length (snd st) = length meta /\
    (forall r row, nth_error data r = Some row -> nth_error (fst st) r = Some (if r <? m then row_scaled L row else row)) /\
    (forall r row, r < m -> nth_error data r = Some row -> nth_error (snd st) r = Some (to32 (div64 (row_M row) L))) /\
    (forall k, m <= k -> nth_error (snd st) k = nth_error meta k)) (length data) (data, meta)) as ([d' m'] & E & A1 & A2 & A3 & A4 & A5).
  - cbn. repeat split; trivial. intros; lia.
  - intros i [d' m'] Hi (A1 & A2 & A3 & A4 & A5). cbn [fst snd] in *. unfold row_normalize.
    destruct (nth_some data i Hi) as (row & N). pose proof (R _ (nth_error_In _ _ N)) as Lr.
    pose proof (A3 i row N) as Nd. rewrite Nat.ltb_irrefl in Nd. unfold rd at 1. rewrite Nd. cbn [bind].
    rewrite <- Lr. rewrite row_max_eq. cbn [bind]. rewrite upd_all. cbn [bind].
    rewrite wr_ok by lia. cbn [bind]. rewrite wr_ok by lia. cbn [bind]. eexists. split; [reflexivity|]. cbn [fst snd]. rewrite !upd_length.
    split; [trivial|]. split; [trivial|]. split; [|split].
    + intros r row' Nr. destruct (Nat.eq_dec r i) as [->|Q].
      * rewrite N in Nr. injection Nr as <-. rewrite upd_same by lia. now rewrite (proj2 (Nat.ltb_lt i (S i))) by lia.
      * rewrite upd_diff by lia. rewrite (A3 r row' Nr). destruct (Nat.ltb_spec r i), (Nat.ltb_spec r (S i)); trivial; lia.
    + intros r row' Hr Nr. destruct (Nat.eq_dec r i) as [->|Q].
      * rewrite N in Nr. injection Nr as <-. now rewrite upd_same by lia.
      * rewrite upd_diff by lia. apply A4; trivial. lia.
    + intros k Hk. rewrite upd_diff by lia. apply A5. lia.
  - cbn [fst snd] in *. exists m'. rewrite E. split; [|repeat split; trivial].
    + do 2 f_equal. apply nth_error_ext. intros r. rewrite nth_error_map. destruct (nth_error data r) as [row|] eqn:N; cbn.
      * rewrite (A3 r row N). now rewrite (proj2 (Nat.ltb_lt _ _) (nth_lt _ _ _ N)).
      * apply nth_error_None. rewrite A1. now apply nth_error_None.
    + intros r row N. apply A4; trivial. eapply nth_lt; eauto.
Qed.

Definition wide (row : drow cf) : drow cd := DRow (antenna1 row) (antenna2 row) (map widen (visibilities row)).

Lemma row_encode_form e nPol nChan d b meta sym L : well_formed e -> rows_of (nPol * nChan) b -> MaxQuantity e = Ok L ->
  length b <= length meta -> SymbolCount (length b) nPol nChan <= length sym ->
  exists meta' sym', row_encode e nPol nChan d b meta sym = Ok (meta', sym') /\ length meta' = length meta /\ length sym' = length sym /\
    (forall r row, nth_error b r = Some row -> nth_error meta' r = Some (to32 (div64 (row_M (wide row)) (to64 L))) /\
       holds e d (nPol * nChan) (r * (nPol * nChan * 2)) (row_scaled (to64 L) (wide row)) (nPol * nChan) sym') /\
    (forall k, length b <= k -> nth_error meta' k = nth_error meta k) /\
    (forall k, SymbolCount (length b) nPol nChan <= k -> nth_error sym' k = nth_error sym k).
Proof.
  intros W R EL Hm Hs. unfold row_encode. rewrite EL. cbn [bind].
  assert (Ld : length (ConvertVector widen b) = length b) by (unfold ConvertVector; apply map_length).
  destruct (row_normalize_all (nPol * nChan) (to64 L) (ConvertVector widen b) meta (convert_rows _ _ R)) as (meta' & E & Lm & H & U); [lia|].
  change (@pair (tbb cd)) with (@pair (list (drow cd))). rewrite E. cbn [bind fst snd].
  destruct (write_symbols_ok e (nPol * nChan) d (map (row_scaled (to64 L)) (ConvertVector widen b)) sym W) as (sym' & Es & Ls & Hh & Us).
  - apply rows_map; [now apply convert_rows|]. intros r. cbn. now rewrite map_length.
  - rewrite map_length, Ld. unfold SymbolCount in Hs. nia.
  - rewrite Es. cbn [bind]. exists meta', sym'. split; [trivial|]. split; [trivial|]. split; [trivial|]. split.
    + intros r row N. assert (Nw : nth_error (ConvertVector widen b) r = Some (wide row)) by (unfold ConvertVector; now rewrite nth_error_map, N).
      split; [now apply H|]. apply Hh. now rewrite nth_error_map, Nw.
    + split; [intros k Hk; apply U; lia|]. intros k Hk. apply Us. rewrite map_length, Ld. unfold SymbolCount in Hk. nia.
Qed.

(** ** RF *)
Section RF.
Context (nPol nChan : nat) (L : f64).
Notation n := (nPol * nChan).

Definition rf_M (row : drow cd) (p : nat) : f64 := maxf (map component (of_pol nPol nChan p (visibilities row))).
Definition rf_meta (m : f64) : f32 := to32 (if is0 L then one64 else div64 m L).
Definition rf_row1 (m : nat) (row : drow cd) : drow cd :=
  DRow (antenna1 row) (antenna2 row)
    (imap (fun i v => if i mod nPol <? m then cmul v (row_factor L (rf_M row (i mod nPol))) else v) (visibilities row)).

Lemma of_pol_row1 m row : length (visibilities row) = n -> m < nPol -> of_pol nPol nChan m (visibilities (rf_row1 m row)) = of_pol nPol nChan m (visibilities row).
Proof.
  intros Lr Hm. unfold of_pol. apply flat_map_ext. intros ch. cbn [visibilities rf_row1]. rewrite imap_nth.
  rewrite stride_mod by trivial. rewrite Nat.ltb_irrefl. now destruct (nth_error (visibilities row) (ch * nPol + m)).
Qed.

Lemma rf_row_all r row meta : length (visibilities row) = n -> n + r * nPol + nPol <= length meta ->
  exists meta', foldM (rf_row_pol nPol nChan L r) (seq 0 nPol) (row, meta) = Ok (rf_row1 nPol row, meta') /\ length meta' = length meta /\
    (forall p, p < nPol -> nth_error meta' (n + r * nPol + p) = Some (rf_meta (rf_M row p))) /\
    (forall k, k < n + r * nPol \/ n + r * nPol + nPol <= k -> nth_error meta' k = nth_error meta k).
Proof.
  intros Lr Hl.
  destruct (foldM_seq (rf_row_pol nPol nChan L r) (fun m st => fst st = rf_row1 m row /\ length (snd st) = length meta /\
    (forall p, p < m -> nth_error (snd st) (n + r * nPol + p) = Some (rf_meta (rf_M row p))) /\
    (forall k, k < n + r * nPol \/ n + r * nPol + m <= k -> nth_error (snd st) k = nth_error meta k)) nPol (row, meta)) as ([row' m'] & E & A1 & A2 & A3 & A4).
  - cbn [fst snd]. split; [|repeat split; trivial; intros; lia]. unfold rf_row1. destruct row as [a1 a2 vis]. cbn [visibilities antenna1 antenna2]. f_equal.
    apply nth_error_ext. intros i. rewrite imap_nth. destruct (nth_error vis i); trivial.
  - intros i [row' m'] Hi (A1 & A2 & A3 & A4). cbn [fst snd] in *. subst row'. unfold rf_row_pol.
    assert (Lr1 : length (visibilities (rf_row1 i row)) = n) by (cbn; now rewrite imap_length).
    rewrite rf_row_max_eq by trivial. rewrite of_pol_row1 by trivial. cbn [bind]. fold (rf_M row i).
    rewrite upd_pol by trivial. cbn [bind]. rewrite wr_ok by lia. cbn [bind]. eexists. split; [reflexivity|]. cbn [fst snd]. rewrite upd_length.
    split; [|split; [trivial|split]].
    + unfold rf_row1 at 1 2. cbn [antenna1 antenna2]. unfold rf_row1. f_equal. cbn [visibilities]. apply nth_error_ext. intros j. rewrite !imap_nth.
      destruct (nth_error (visibilities row) j) as [v|] eqn:Nj; cbn [option_map]; trivial. f_equal.
      destruct (Nat.eqb_spec (j mod nPol) i) as [Q|Q].
      * rewrite Q, Nat.ltb_irrefl. now rewrite (proj2 (Nat.ltb_lt i (S i))) by lia.
      * destruct (Nat.ltb_spec (j mod nPol) i), (Nat.ltb_spec (j mod nPol) (S i)); trivial; lia.
    + intros p Hp. destruct (Nat.eq_dec p i) as [->|Q]; [now rewrite upd_same by lia|]. rewrite upd_diff by lia. apply A3. lia.
    + intros k Hk. rewrite upd_diff by lia. apply A4. lia.
  - cbn [fst snd] in *. subst row'. exists m'. rewrite E. repeat split; trivial.
Qed.

Lemma rf_rows_all data meta : rows_of n data -> nPol * (nChan + length data) <= length meta ->
  exists meta', rf_rows nPol nChan L data meta = Ok (map (rf_row1 nPol) data, meta') /\ length meta' = length meta /\
    (forall r row p, nth_error data r = Some row -> p < nPol -> nth_error meta' (n + r * nPol + p) = Some (rf_meta (rf_M row p))) /\
    (forall k, k < n \/ nPol * (nChan + length data) <= k -> nth_error meta' k = nth_error meta k).
Proof.
  intros R Hl. unfold rf_rows.
  match goal with |- context [foldM ?f _ _] => destruct (foldM_seq f (fun m st => length (fst st) = length data /\ length (snd st) = length meta /\
    (forall r row, nth_error data r = Some row -> nth_error (fst st) r = Some (if r <? m then rf_row1 nPol row else row)) /\
    (forall r row p, r < m -> nth_error data r = Some row -> p < nPol -> nth_error (snd st) (n + r * nPol + p) = Some (rf_meta (rf_M row p))) /\
    (forall k, k < n \/ n + m * nPol <= k -> nth_error (snd st) k = nth_error meta k)) (length data) (data, meta)) as ([d' m'] & E & A1 & A2 & A3 & A4 & A5) end.
  - cbn. repeat split; trivial. intros; lia.
  - intros i [d' m'] Hi (A1 & A2 & A3 & A4 & A5). cbn [fst snd] in *.
    destruct (nth_some data i Hi) as (row & N). pose proof (R _ (nth_error_In _ _ N)) as Lr.
    pose proof (A3 i row N) as Nd. rewrite Nat.ltb_irrefl in Nd. unfold rd at 1. rewrite Nd. cbn [bind].
    destruct (rf_row_all i row m' Lr) as (m'' & E & Lm & H & U); [rewrite A2; nia|]. rewrite E. cbn [bind].
    rewrite wr_ok by lia. cbn [bind]. eexists. split; [reflexivity|]. cbn [fst snd]. rewrite upd_length.
    split; [trivial|]. split; [lia|]. split; [|split].
    + intros r row' Nr. destruct (Nat.eq_dec r i) as [->|Q].
      * rewrite N in Nr. injection Nr as <-. rewrite upd_same by lia. now rewrite (proj2 (Nat.ltb_lt i (S i))) by lia.
      * rewrite upd_diff by lia. rewrite (A3 r row' Nr). destruct (Nat.ltb_spec r i), (Nat.ltb_spec r (S i)); trivial; lia.
    + intros r row' p Hr Nr Hp. destruct (Nat.eq_dec r i) as [->|Q].
      * rewrite N in Nr. injection Nr as <-. now apply H.
      * rewrite U by nia. apply A4; trivial. lia.
    + intros k Hk. rewrite U by nia. apply A5. nia.
  - cbn [fst snd] in *. exists m'. rewrite E. split; [|split; [trivial|split]].
    + do 2 f_equal. apply nth_error_ext. intros r. rewrite nth_error_map. destruct (nth_error data r) as [row|] eqn:N; cbn.
      * rewrite (A3 r row N). now rewrite (proj2 (Nat.ltb_lt _ _) (nth_lt _ _ _ N)).
      * apply nth_error_None. rewrite A1. now apply nth_error_None.
    + intros r row p N Hp. apply A4; trivial. eapply nth_lt; eauto.
    + intros k Hk. apply A5. nia.
Qed.

Definition rf_C (data : list (drow cd)) (i : nat) : f64 := maxf (map component (of_chan i data)).
Definition rf_row2 (data : list (drow cd)) (m : nat) (row : drow cd) : drow cd :=
  DRow (antenna1 row) (antenna2 row) (imap (fun i v => if i <? m then cmul v (channel_factor L (rf_C data i)) else v) (visibilities row)).

Lemma of_chan_row2 data m : of_chan m (map (rf_row2 data m) data) = of_chan m data.
Proof.
  unfold of_chan. rewrite flat_map_concat_map, map_map, flat_map_concat_map. f_equal. apply map_ext. intros r. cbn [visibilities rf_row2]. rewrite imap_nth.
  destruct (nth_error (visibilities r) m); cbn [option_map]; rewrite ?Nat.ltb_irrefl; trivial.
Qed.

Lemma rf_channels_all data meta : rows_of n data -> n <= length meta ->
  exists meta', rf_channels n L data meta = Ok (map (rf_row2 data n) data, meta') /\ length meta' = length meta /\
    (forall i, i < n -> nth_error meta' i = Some (to32 (div64 one64 (channel_factor L (rf_C data i))))) /\
    (forall k, n <= k -> nth_error meta' k = nth_error meta k).
Proof.
  intros R Hl. unfold rf_channels.
  match goal with |- context [foldM ?f _ _] => destruct (foldM_seq f (fun m st => fst st = map (rf_row2 data m) data /\ length (snd st) = length meta /\
    (forall i, i < m -> nth_error (snd st) i = Some (to32 (div64 one64 (channel_factor L (rf_C data i))))) /\
    (forall k, m <= k -> nth_error (snd st) k = nth_error meta k)) n (data, meta)) as ([d' m'] & E & A1 & A2 & A3 & A4) end.
  - cbn [fst snd]. split; [|repeat split; trivial; intros; lia]. rewrite <- (map_id data) at 1. apply map_ext. intros [a1 a2 vis]. unfold rf_row2. cbn [visibilities antenna1 antenna2]. f_equal.
    apply nth_error_ext. intros i. rewrite imap_nth. destruct (nth_error vis i); trivial.
  - intros i [d' m'] Hi (A1 & A2 & A3 & A4). cbn [fst snd] in *. subst d'.
    assert (R2 : rows_of n (map (rf_row2 data i) data)) by (apply rows_map; [trivial|]; intros r; cbn; now rewrite imap_length).
    rewrite (channel_max_eq n) by trivial. rewrite of_chan_row2. cbn [bind]. fold (rf_C data i).
    rewrite wr_ok by lia. cbn [bind]. rewrite (upd_chan _ n) by trivial. cbn [bind]. eexists. split; [reflexivity|]. cbn [fst snd]. rewrite upd_length.
    split; [|split; [trivial|split]].
    + rewrite map_map. apply map_ext. intros row. unfold rf_row2. cbn [antenna1 antenna2 visibilities]. f_equal. apply nth_error_ext. intros j. rewrite !imap_nth.
      destruct (nth_error (visibilities row) j) as [v|] eqn:Nj; cbn [option_map]; trivial. f_equal.
      destruct (Nat.eqb_spec j i) as [->|Q].
      * rewrite Nat.ltb_irrefl. now rewrite (proj2 (Nat.ltb_lt i (S i))) by lia.
      * destruct (Nat.ltb_spec j i), (Nat.ltb_spec j (S i)); trivial; lia.
    + intros p Hp. destruct (Nat.eq_dec p i) as [->|Q]; [now rewrite upd_same by lia|]. rewrite upd_diff by lia. apply A3. lia.
    + intros k Hk. rewrite upd_diff by lia. apply A4. lia.
  - cbn [fst snd] in *. subst d'. exists m'. rewrite E. repeat split; trivial.
Qed.
End RF.

Definition rf_y (nPol nChan : nat) (L : f64) (data : list (drow cd)) (row : drow cd) : drow cd :=
  rf_row2 L (map (rf_row1 nPol nChan L nPol) data) (nPol * nChan) (rf_row1 nPol nChan L nPol row).

Lemma rf_encode_form e nPol nChan d b meta sym L : well_formed e -> rows_of (nPol * nChan) b -> MaxQuantity e = Ok L ->
  rf_MetaDataCount (length b) nPol nChan 0 <= length meta -> SymbolCount (length b) nPol nChan <= length sym ->
  let data := map wide b in let data1 := map (rf_row1 nPol nChan (to64 L) nPol) data in
  exists meta' sym', rf_encode e nPol nChan d b meta sym = Ok (meta', sym') /\ length meta' = length meta /\ length sym' = length sym /\
    (forall i, i < nPol * nChan -> nth_error meta' i = Some (to32 (div64 one64 (channel_factor (to64 L) (rf_C data1 i))))) /\
    (forall r row, nth_error b r = Some row ->
       (forall p, p < nPol -> nth_error meta' (nPol * nChan + r * nPol + p) = Some (rf_meta (to64 L) (rf_M nPol nChan (wide row) p))) /\
       holds e d (nPol * nChan) (r * (nPol * nChan * 2)) (rf_y nPol nChan (to64 L) data (wide row)) (nPol * nChan) sym') /\
    (forall k, rf_MetaDataCount (length b) nPol nChan 0 <= k -> nth_error meta' k = nth_error meta k) /\
    (forall k, SymbolCount (length b) nPol nChan <= k -> nth_error sym' k = nth_error sym k).
Proof.
  intros W R EL Hm Hs data data1. unfold rf_encode, rf_MetaDataCount in *. rewrite EL. cbn [bind]. change (ConvertVector widen b) with data.
  assert (Ld : length data = length b) by (unfold data; apply map_length).
  assert (Rd : rows_of (nPol * nChan) data) by (now apply convert_rows).
  destruct (rf_rows_all nPol nChan (to64 L) data meta Rd) as (m1 & E1 & L1 & H1 & U1); [now rewrite Ld|]. rewrite E1. cbn [bind]. fold data1.
  assert (R1 : rows_of (nPol * nChan) data1) by (unfold data1; apply rows_map; [trivial|]; intros r; cbn; now rewrite imap_length).
  destruct (rf_channels_all nPol nChan (to64 L) data1 m1 R1) as (m2 & E2 & L2 & H2 & U2); [lia|]. rewrite E2. cbn [bind].
  destruct (write_symbols_ok e (nPol * nChan) d (map (rf_row2 (to64 L) data1 (nPol * nChan)) data1) sym W) as (sym' & Es & Ls & Hh & Us).
  - apply rows_map; [trivial|]. intros r. cbn. now rewrite imap_length.
  - unfold data1. rewrite !map_length, Ld. unfold SymbolCount in Hs. nia.
  - rewrite Es. cbn [bind]. exists m2, sym'. split; [trivial|]. split; [lia|]. split; [trivial|]. split; [trivial|]. split; [|split].
    + intros r row N. assert (Nw : nth_error data r = Some (wide row)) by (unfold data; now rewrite nth_error_map, N). split.
      * intros p Hp. rewrite U2 by lia. now apply H1.
      * assert (N1 : nth_error data1 r = Some (rf_row1 nPol nChan (to64 L) nPol (wide row))) by (unfold data1; now rewrite nth_error_map, Nw).
        apply Hh. rewrite nth_error_map, N1. reflexivity.
    + intros k Hk. rewrite U2 by lia. apply U1. right. now rewrite Ld.
    + intros k Hk. apply Us. unfold data1. rewrite !map_length, Ld. unfold SymbolCount in Hk. nia.
Qed.

(** ** Decoding *)
Lemma mapM_seq {B} (f : nat -> res B) n (P : nat -> B -> Prop) : (forall i, i < n -> exists x, f i = Ok x /\ P i x) ->
  exists l, mapM f (seq 0 n) = Ok l /\ length l = n /\ (forall i, i < n -> exists x, nth_error l i = Some x /\ P i x).
Proof.
  intros H. destruct (mapM_ok f P (seq 0 n)) as (l & E & F).
  - intros i I. apply in_seq in I. apply H. lia.
  - exists l. split; [trivial|]. split; [rewrite (Forall2_len _ _ _ F); apply seq_length|]. intros i Hi.
    destruct (Forall2_nth _ _ _ F i i) as (x & Nx & Px); [now rewrite nth_error_seq|]. eauto.
Qed.

Lemma decode_row_ok e n per symbols blockRow factor : well_formed e ->
  (forall i, i < n -> exists f, factor i = Ok f) ->
  (forall k, k < n * 2 -> exists s, nth_error symbols (blockRow * per + k) = Some s /\ s < QuantizationCount e) ->
  exists out, decode_row e n per symbols blockRow factor = Ok out /\ length out = n /\
    forall i, i < n -> exists f s s' q q', factor i = Ok f /\
      nth_error symbols (blockRow * per + i * 2) = Some s /\ Decode e s = Ok q /\
      nth_error symbols (blockRow * per + i * 2 + 1) = Some s' /\ Decode e s' = Ok q' /\
      nth_error out i = Some (to32 (mul64 (to64 q) f), to32 (mul64 (to64 q') f)).
Proof.
  intros W Hf Hs. unfold decode_row.
  match goal with |- context [mapM ?g _] => destruct (mapM_seq g n (fun i x => exists f s s' q q', factor i = Ok f /\
      nth_error symbols (blockRow * per + i * 2) = Some s /\ Decode e s = Ok q /\
      nth_error symbols (blockRow * per + i * 2 + 1) = Some s' /\ Decode e s' = Ok q' /\
      x = (to32 (mul64 (to64 q) f), to32 (mul64 (to64 q') f)))) as (out & E & Lo & H) end.
  - intros i Hi. destruct (Hf i Hi) as (f & Ef). destruct (Hs (i * 2)) as (s & Es & Ls); [lia|]. destruct (Hs (i * 2 + 1)) as (s' & Es' & Ls'); [lia|].
    rewrite Nat.add_assoc in Es'.
    destruct (decode_reserved_total e s W Ls) as (q & Eq & _). destruct (decode_reserved_total e s' W Ls') as (q' & Eq' & _).
    rewrite Ef. cbn [bind]. unfold rd at 1. rewrite Es. cbn [bind]. rewrite Eq. cbn [bind]. unfold rd at 1. rewrite Es'. cbn [bind]. rewrite Eq'. cbn [bind].
    eexists. split; [reflexivity|]. exists f, s, s', q, q'. repeat split; trivial.
  - rewrite E. exists out. split; [trivial|]. split; [trivial|]. intros i Hi.
    destruct (H i Hi) as (x & Nx & f & s & s' & q & q' & A & B & C & D & F & ->). exists f, s, s', q, q'. repeat split; trivial.
Qed.
