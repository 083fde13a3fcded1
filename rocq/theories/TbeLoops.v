(** The loops of the time block encoders, as functions on lists.  Proof file. *)
From Verif Require Import Base BaseLemmas Floats TimeBlockBuffer StochasticEncoder EncSpec StochasticEncoderProofs TimeBlockEncoders TbeSpec.

(** ** Generic loops *)
Section Generic.
Context {A S : Type}.

Lemma foldM_list (f : S -> A -> res S) (P : nat -> S -> Prop) l : forall s k, P k s ->
  (forall i a s, nth_error l i = Some a -> P (k + i) s -> exists s', f s a = Ok s' /\ P (k + 1 + i) s') ->
  exists s', foldM f l s = Ok s' /\ P (k + length l) s'.
Proof.
  induction l as [|a l IH]; intros s k H0 H; cbn [foldM length].
  - exists s. now rewrite Nat.add_0_r.
  - destruct (H 0 a s eq_refl) as (s1 & E & P1); [now rewrite Nat.add_0_r|]. rewrite E. cbn [bind].
    rewrite Nat.add_0_r in P1. destruct (IH s1 (k + 1) P1) as (s2 & E2 & P2).
    + intros i b s' N Ps. destruct (H (Datatypes.S i) b s') as (s'' & Es & Ps'); trivial.
      { now replace (k + Datatypes.S i) with (k + 1 + i) by lia. }
      exists s''. split; trivial. now replace (k + 1 + 1 + i) with (k + 1 + Datatypes.S i) by lia.
    + exists s2. split; trivial. now replace (k + Datatypes.S (length l)) with (k + 1 + length l) by lia.
Qed.

Lemma foldM_pure (f : S -> A -> res S) (g : S -> A -> S) l : forall s,
  (forall s a, In a l -> f s a = Ok (g s a)) -> foldM f l s = Ok (fold_left g l s).
Proof.
  induction l as [|a l IH]; intros s H; cbn; trivial. rewrite H by now left. cbn. apply IH. intros; apply H; now right.
Qed.

Lemma foldM_ext (f g : S -> A -> res S) l : forall s, (forall s a, In a l -> f s a = g s a) -> foldM f l s = foldM g l s.
Proof.
  induction l as [|a l IH]; intros s H; cbn; trivial. rewrite H by now left. destruct (g s a); cbn; trivial.
  apply IH. intros; apply H; now right.
Qed.

Lemma foldM_app (f : S -> A -> res S) l l' : forall s, foldM f (l ++ l') s = do s' <- foldM f l s; foldM f l' s'.
Proof. induction l as [|a l IH]; intros s; cbn; trivial. destruct (f s a); cbn; trivial. Qed.
End Generic.

Lemma foldM_seq {S} (f : S -> nat -> res S) (P : nat -> S -> Prop) n s : P 0 s ->
  (forall i s, i < n -> P i s -> exists s', f s i = Ok s' /\ P (Datatypes.S i) s') ->
  exists s', foldM f (seq 0 n) s = Ok s' /\ P n s'.
Proof.
  intros H0 H. destruct (foldM_list f P (seq 0 n) s 0 H0) as (s' & E & Ps).
  - intros i a s1 N P1. assert (L : i < n) by (rewrite <- (seq_length n 0); apply nth_error_Some; congruence).
    rewrite nth_error_seq in N by trivial. injection N as <-. cbn. now apply H.
  - exists s'. split; trivial. now rewrite seq_length in Ps.
Qed.

(** ** Arrays *)
Lemma upd_length {A} (l : list A) i a : length (upd l i a) = length l.
Proof. revert i. induction l as [|x l IH]; intros [|i]; cbn; trivial. now rewrite IH. Qed.

Lemma upd_same {A} (l : list A) i a : i < length l -> nth_error (upd l i a) i = Some a.
Proof. revert i. induction l as [|x l IH]; intros [|i] H; cbn in *; trivial; try lia. apply IH. lia. Qed.

Lemma upd_diff {A} (l : list A) i j a : i <> j -> nth_error (upd l i a) j = nth_error l j.
Proof. revert i j. induction l as [|x l IH]; intros [|i] [|j] H; cbn; trivial; try lia. apply IH. lia. Qed.

Lemma wr_ok {A} (l : list A) i a : i < length l -> wr l i a = Ok (upd l i a).
Proof. intros H. unfold wr. now rewrite (proj2 (Nat.ltb_lt _ _) H). Qed.

Lemma rd_ok {A} (l : list A) i : i < length l -> exists a, rd l i = Ok a /\ nth_error l i = Some a.
Proof. intros H. unfold rd. destruct (nth_error l i) eqn:E; [eauto|]. apply nth_error_None in E. lia. Qed.

Lemma nth_error_ext {A} (l l' : list A) : (forall i, nth_error l i = nth_error l' i) -> l = l'.
Proof.
  revert l'. induction l as [|a l IH]; intros [|b l'] H; trivial; try (specialize (H 0); discriminate).
  pose proof (H 0) as H0. cbn in H0. injection H0 as ->. f_equal. apply IH. intros i. apply (H (S i)).
Qed.

Lemma nth_lt {A} (l : list A) i a : nth_error l i = Some a -> i < length l.
Proof. intros H. apply nth_error_Some. congruence. Qed.

Lemma nth_some {A} (l : list A) i : i < length l -> exists a, nth_error l i = Some a.
Proof. intros H. destruct (nth_error l i) eqn:E; [eauto|]. apply nth_error_None in E. lia. Qed.

(** [imap f l] applies [f] to index and element *)
Fixpoint imap_from {A B} (f : nat -> A -> B) (k : nat) (l : list A) : list B :=
  match l with [] => [] | a :: t => f k a :: imap_from f (S k) t end.
Definition imap {A B} (f : nat -> A -> B) (l : list A) : list B := imap_from f 0 l.

Lemma imap_from_nth {A B} (f : nat -> A -> B) l : forall k i, nth_error (imap_from f k l) i = option_map (f (k + i)) (nth_error l i).
Proof.
  induction l as [|a l IH]; intros k [|i]; cbn; trivial; [now rewrite Nat.add_0_r|]. rewrite IH. now rewrite Nat.add_succ_r.
Qed.
Lemma imap_nth {A B} (f : nat -> A -> B) l i : nth_error (imap f l) i = option_map (f i) (nth_error l i).
Proof. unfold imap. now rewrite imap_from_nth. Qed.
Lemma imap_length {A B} (f : nat -> A -> B) l : length (imap f l) = length l.
Proof. unfold imap. generalize 0. induction l as [|a l IH]; intros k; cbn; trivial. now rewrite IH. Qed.

Lemma nth_error_map_opt {A B} (f : A -> B) l i : nth_error (map f l) i = option_map f (nth_error l i).
Proof. apply nth_error_map. Qed.

(** changing the elements at the indices of a list, each once *)
Lemma upd_loop {A} (r : drow A) (g : A -> A) (idx : nat -> nat) n :
  (forall k, k < n -> idx k < length (visibilities r)) -> (forall k k', k < n -> k' < n -> idx k = idx k' -> k = k') ->
  exists vis, foldM (fun r k => upd_vis r (idx k) g) (seq 0 n) r = Ok (DRow (antenna1 r) (antenna2 r) vis) /\
    length vis = length (visibilities r) /\
    (forall k v, k < n -> nth_error (visibilities r) (idx k) = Some v -> nth_error vis (idx k) = Some (g v)) /\
    (forall i, (forall k, k < n -> idx k <> i) -> nth_error vis i = nth_error (visibilities r) i).
Proof.
  intros R I.
  destruct (foldM_seq (fun r k => upd_vis r (idx k) g)
    (fun m r' => antenna1 r' = antenna1 r /\ antenna2 r' = antenna2 r /\ length (visibilities r') = length (visibilities r) /\
      (forall k v, k < m -> nth_error (visibilities r) (idx k) = Some v -> nth_error (visibilities r') (idx k) = Some (g v)) /\
      (forall i, (forall k, k < m -> idx k <> i) -> nth_error (visibilities r') i = nth_error (visibilities r) i)) n r) as (r' & E & A1 & A2 & L & H1 & H2).
  - repeat split; trivial. intros; lia.
  - intros m s Hm (A1 & A2 & L & H1 & H2). unfold upd_vis. destruct (nth_some (visibilities r) (idx m) (R m Hm)) as (v & Ev).
    assert (Es : nth_error (visibilities s) (idx m) = Some v).
    { rewrite H2; trivial. intros k Hk E. apply I in E; lia. }
    unfold rd. rewrite Es. cbn [bind]. rewrite wr_ok by (rewrite L; now apply R). cbn [bind].
    eexists. split; [reflexivity|]. cbn [antenna1 antenna2 visibilities]. rewrite upd_length. repeat split; trivial.
    + intros k w Hk Ew. destruct (Nat.eq_dec (idx k) (idx m)) as [Q|Q].
      * rewrite Q in *. rewrite upd_same by (rewrite L; now apply R). congruence.
      * rewrite upd_diff by congruence. apply H1; trivial. assert (k <> m) by (intros ->; contradiction). lia.
    + intros i Hi. rewrite upd_diff by (apply Hi; lia). apply H2. intros k Hk. apply Hi. lia.
  - exists (visibilities r'). split; [|repeat split; trivial]. rewrite E. destruct r' as [b1 b2 vis]. cbn in *. now subst b1 b2.
Qed.

(** changing all elements *)
Lemma upd_all {A} (r : drow A) (g : A -> A) : foldM (fun r k => upd_vis r k g) (seq 0 (length (visibilities r))) r =
  Ok (DRow (antenna1 r) (antenna2 r) (map g (visibilities r))).
Proof.
  destruct (upd_loop r g (fun k => k) (length (visibilities r))) as (vis & E & L & H1 & H2); [trivial|trivial|].
  rewrite E. do 2 f_equal. apply nth_error_ext. intros i. rewrite nth_error_map.
  destruct (nth_error (visibilities r) i) as [v|] eqn:Ev; cbn.
  - apply H1; trivial. eapply nth_lt; eauto.
  - apply nth_error_None. rewrite L. now apply nth_error_None.
Qed.

Lemma stride_lt nPol nChan pol ch : pol < nPol -> ch < nChan -> ch * nPol + pol < nPol * nChan.
Proof. intros. nia. Qed.
Lemma stride_inj nPol pol ch ch' : pol < nPol -> ch * nPol + pol = ch' * nPol + pol -> ch = ch'.
Proof. intros. nia. Qed.
Lemma stride_mod nPol pol ch : pol < nPol -> (ch * nPol + pol) mod nPol = pol.
Proof. intros. rewrite Nat.add_comm, Nat.mod_add by lia. now apply Nat.mod_small. Qed.
Lemma stride_of nPol nChan i : i < nPol * nChan -> i mod nPol < nPol /\ i / nPol < nChan /\ i = i / nPol * nPol + i mod nPol.
Proof.
  intros H. assert (nPol <> 0) by lia. split; [now apply Nat.mod_upper_bound|]. split.
  - apply Nat.div_lt_upper_bound; trivial.
  - rewrite Nat.mul_comm. now apply Nat.div_mod.
Qed.

(** changing the elements of one polarization *)
Lemma upd_pol {A} (r : drow A) (g : A -> A) nPol nChan pol : length (visibilities r) = nPol * nChan -> pol < nPol ->
  foldM (fun r ch => upd_vis r (ch * nPol + pol) g) (seq 0 nChan) r =
  Ok (DRow (antenna1 r) (antenna2 r) (imap (fun i v => if i mod nPol =? pol then g v else v) (visibilities r))).
Proof.
  intros Len Hp. destruct (upd_loop r g (fun ch => ch * nPol + pol) nChan) as (vis & E & L & H1 & H2).
  - intros k Hk. rewrite Len. now apply stride_lt.
  - intros k k' _ _ Q. eapply stride_inj; eauto.
  - rewrite E. do 2 f_equal. apply nth_error_ext. intros i. rewrite imap_nth.
    destruct (nth_error (visibilities r) i) as [v|] eqn:Ev; cbn.
    + assert (Hi : i < nPol * nChan) by (rewrite <- Len; eapply nth_lt; eauto).
      destruct (stride_of nPol nChan i Hi) as (B1 & B2 & B3). destruct (Nat.eqb_spec (i mod nPol) pol) as [Q|Q].
      * rewrite Q in B3. rewrite B3. apply H1; trivial. now rewrite <- B3.
      * rewrite H2; trivial. intros k _ <-. apply Q. now apply stride_mod.
    + apply nth_error_None. rewrite L. now apply nth_error_None.
Qed.

(** ** Maxima *)
Definition pick (m c : f64) : f64 := if is_finite c && Bltb m c then c else m.
Definition maxf (l : list f64) : f64 := fold_left pick l zero64.

Lemma std_max_pick m c : (if is_finite c then std_max m c else m) = pick m c.
Proof. unfold pick, std_max. now destruct (is_finite c), (Bltb m c). Qed.

Lemma foldM_rd {A} (l : list A) (f : f64 -> A -> f64) : forall (pre : list A) m,
  foldM (fun m i => do v <- rd (pre ++ l) i; Ok (f m v)) (seq (length pre) (length l)) m = Ok (fold_left f l m).
Proof.
  induction l as [|a l IH]; intros pre m; cbn [length seq foldM fold_left]; trivial.
  unfold rd at 1. rewrite nth_error_app2, Nat.sub_diag by lia. cbn [nth_error bind].
  specialize (IH (pre ++ [a]) (f m a)). rewrite <- app_assoc in IH. rewrite app_length in IH. cbn [length app] in IH.
  rewrite Nat.add_1_r in IH. exact IH.
Qed.

Lemma fold_left_map {A B S} (f : S -> B -> S) (g : A -> B) l : forall s, fold_left f (map g l) s = fold_left (fun s a => f s (g a)) l s.
Proof. induction l as [|a l IH]; intros s; cbn; trivial. Qed.

Lemma row_max_eq vis : row_max (length vis) vis = Ok (maxf (map component vis)).
Proof.
  unfold row_max, maxf. rewrite fold_left_map. rewrite <- (foldM_rd vis (fun m v => pick m (component v)) [] zero64). cbn [app length].
  apply foldM_ext. intros s a _. destruct (rd vis a); cbn; trivial. now rewrite std_max_pick.
Qed.

(** the samples of one polarization *)
Definition of_pol {A} (nPol nChan pol : nat) (vis : list A) : list A :=
  flat_map (fun ch => match nth_error vis (ch * nPol + pol) with Some v => [v] | None => [] end) (seq 0 nChan).

Lemma of_pol_In {A} nPol nChan pol (vis : list A) v : In v (of_pol nPol nChan pol vis) <->
  exists ch, ch < nChan /\ nth_error vis (ch * nPol + pol) = Some v.
Proof.
  unfold of_pol. rewrite in_flat_map. split.
  - intros (ch & I & J). apply in_seq in I. exists ch. split; [lia|]. destruct (nth_error vis (ch * nPol + pol)); cbn in J; [|easy].
    destruct J as [->|J]; easy.
  - intros (ch & L & E). exists ch. split; [apply in_seq; lia|]. rewrite E. now left.
Qed.

Lemma foldM_of_pol {A} nPol nChan pol (vis : list A) (f : f64 -> A -> f64) : length vis = nPol * nChan -> pol < nPol -> forall m,
  foldM (fun m ch => do v <- rd vis (ch * nPol + pol); Ok (f m v)) (seq 0 nChan) m = Ok (fold_left f (of_pol nPol nChan pol vis) m).
Proof.
  intros Len Hp. unfold of_pol. assert (R : forall ch, In ch (seq 0 nChan) -> ch * nPol + pol < length vis).
  { intros ch I. apply in_seq in I. rewrite Len. apply stride_lt; lia. }
  revert R. generalize (seq 0 nChan). induction l as [|ch l IH]; intros R m; cbn [foldM flat_map fold_left]; trivial.
  destruct (rd_ok vis (ch * nPol + pol)) as (v & E1 & E2); [apply R; now left|]. rewrite E1, E2. cbn [bind app fold_left]. apply IH.
  intros c I. apply R. now right.
Qed.

Lemma rf_row_max_eq nPol nChan pol vis : length vis = nPol * nChan -> pol < nPol ->
  rf_row_max nPol nChan pol vis = Ok (maxf (map component (of_pol nPol nChan pol vis))).
Proof.
  intros Len Hp. unfold rf_row_max, maxf. rewrite fold_left_map, <- (foldM_of_pol nPol nChan pol vis) by trivial.
  apply foldM_ext. intros s a _. destruct (rd vis (a * nPol + pol)); cbn; trivial. now rewrite std_max_pick.
Qed.

(** the samples of one channel *)
Definition of_chan {A} (i : nat) (data : list (drow A)) : list A :=
  flat_map (fun r => match nth_error (visibilities r) i with Some v => [v] | None => [] end) data.

Lemma of_chan_In {A} i (data : list (drow A)) v : In v (of_chan i data) <-> exists r, In r data /\ nth_error (visibilities r) i = Some v.
Proof.
  unfold of_chan. rewrite in_flat_map. split.
  - intros (r & I & J). exists r. split; trivial. destruct (nth_error (visibilities r) i); cbn in J; [|easy]. destruct J as [->|J]; easy.
  - intros (r & I & E). exists r. split; trivial. rewrite E. now left.
Qed.

(** every row has [n] samples *)

Lemma channel_max_eq n i data : rows_of n data -> i < n -> channel_max i data = Ok (maxf (map component (of_chan i data))).
Proof.
  intros H Hi. unfold channel_max, maxf, of_chan. rewrite fold_left_map. generalize zero64.
  induction data as [|r data IH]; intros m; cbn [foldM flat_map fold_left]; trivial.
  destruct (rd_ok (visibilities r) i) as (v & E1 & E2); [rewrite (H r); [trivial|now left]|]. rewrite E1, E2. cbn [bind app fold_left].
  apply IH. intros r' I. apply H. now right.
Qed.

(** changing one element in every row *)
Lemma upd_chan {A} (g : A -> A) n i (data : list (drow A)) : rows_of n data -> i < n ->
  mapM (fun r => upd_vis r i g) data =
  Ok (map (fun r => DRow (antenna1 r) (antenna2 r) (imap (fun j v => if j =? i then g v else v) (visibilities r))) data).
Proof.
  intros H Hi. apply mapM_map. intros r I. unfold upd_vis. destruct (rd_ok (visibilities r) i) as (v & E1 & E2); [rewrite (H r I); trivial|].
  rewrite E1. cbn [bind]. rewrite wr_ok by now rewrite (H r I). cbn [bind]. do 2 f_equal. apply nth_error_ext. intros j. rewrite imap_nth.
  destruct (Nat.eqb_spec j i) as [->|Q].
  - rewrite E2. cbn. apply upd_same. now rewrite (H r I).
  - rewrite upd_diff by congruence. now destruct (nth_error (visibilities r) j).
Qed.

(** ** Symbols *)
Lemma enc_value_total e d k x : well_formed e -> exists s, enc_value e d k x = Ok s /\ s < QuantizationCount e.
Proof.
  intros W. unfold enc_value. destruct d as [f|].
  - destruct (dither_reserved_total e (to32 x) (f k) W) as (s & E & L & _). eauto.
  - destruct (encode_reserved_total e (to32 x) W) as (s & E & L & _). eauto.
Qed.

(** the symbols of [data] start at [ptr] *)
Definition holds (e : encoder) (d : option (nat -> Z)) (n ptr : nat) (r : drow cd) (m : nat) (sym : list nat) : Prop :=
  forall i v, i < m -> nth_error (visibilities r) i = Some v ->
    exists s s', enc_value e d (ptr + i * 2) (fst v) = Ok s /\ enc_value e d (ptr + i * 2 + 1) (snd v) = Ok s' /\
      nth_error sym (ptr + i * 2) = Some s /\ nth_error sym (ptr + i * 2 + 1) = Some s'.

Lemma write_row_ok e n d ptr r sym : well_formed e -> length (visibilities r) = n -> ptr + n * 2 <= length sym ->
  exists sym', write_row e n d ptr r sym = Ok sym' /\ length sym' = length sym /\ holds e d n ptr r n sym' /\
    (forall k, k < ptr \/ ptr + n * 2 <= k -> nth_error sym' k = nth_error sym k).
Proof.
  intros W Len Hl. unfold write_row.
  edestruct (foldM_seq (fun sym i => do v <- rd (visibilities r) i; do s <- enc_value e d (ptr + i * 2) (fst v);
      do sym <- wr sym (ptr + i * 2) s; do s <- enc_value e d (ptr + i * 2 + 1) (snd v); wr sym (ptr + i * 2 + 1) s)
    (fun m sym' => length sym' = length sym /\ holds e d n ptr r m sym' /\
       (forall k, k < ptr \/ ptr + m * 2 <= k -> nth_error sym' k = nth_error sym k)) n sym) as (sym' & E & L & H & U).
  - repeat split; trivial. intros i v Hi. lia.
  - intros m s Hm (L & H & U). destruct (rd_ok (visibilities r) m) as (v & E1 & E2); [lia|].
    destruct (enc_value_total e d (ptr + m * 2) (fst v) W) as (s1 & F1 & _). destruct (enc_value_total e d (ptr + m * 2 + 1) (snd v) W) as (s2 & F2 & _).
    rewrite E1. cbn [bind]. rewrite F1. cbn [bind]. rewrite wr_ok by lia. cbn [bind]. rewrite F2. cbn [bind]. rewrite wr_ok by (rewrite upd_length; lia).
    eexists. split; [reflexivity|]. rewrite !upd_length. split; [trivial|]. split.
    + intros i w Hi Ew. destruct (Nat.eq_dec i m) as [->|Q].
      * rewrite E2 in Ew. injection Ew as <-. exists s1, s2. repeat split; trivial.
        -- rewrite upd_diff by lia. apply upd_same. lia.
        -- apply upd_same. rewrite upd_length. lia.
      * destruct (H i w) as (t1 & t2 & G1 & G2 & G3 & G4); [lia|trivial|]. exists t1, t2. repeat split; trivial; rewrite !upd_diff by lia; trivial.
    + intros k Hk. rewrite !upd_diff by lia. apply U. lia.
  - exists sym'. repeat split; trivial.
Qed.

(** symbol [k] of sample component number [k] of the block *)
Lemma write_symbols_ok e n d data sym : well_formed e -> rows_of n data -> length data * n * 2 <= length sym ->
  exists sym', write_symbols e n d data sym = Ok sym' /\ length sym' = length sym /\
    (forall r row, nth_error data r = Some row -> holds e d n (r * (n * 2)) row n sym') /\
    (forall k, length data * n * 2 <= k -> nth_error sym' k = nth_error sym k).
Proof.
  intros W R Hl. unfold write_symbols.
  edestruct (foldM_list (fun '(sym, ptr) r => do sym <- write_row e n d ptr r sym; Ok (sym, ptr + n * 2))
    (fun m st => snd st = m * (n * 2) /\ length (fst st) = length sym /\
      (forall r row, r < m -> nth_error data r = Some row -> holds e d n (r * (n * 2)) row n (fst st)) /\
      (forall k, m * n * 2 <= k -> nth_error (fst st) k = nth_error sym k)) data (sym, 0) 0) as ([sym' p] & E & A1 & A2 & A3 & A4).
  - cbn. repeat split; trivial. intros; lia.
  - cbn [Nat.add]. intros i row [s p] N (A1 & A2 & A3 & A4). cbn [fst snd] in *. subst p.
    assert (Hi : i < length data) by (eapply nth_lt; eauto).
    destruct (write_row_ok e n d (i * (n * 2)) row s W (R _ (nth_error_In _ _ N))) as (s' & E & L & H & U); [rewrite A2; nia|].
    rewrite E. cbn [bind]. eexists. split; [reflexivity|]. cbn [fst snd]. split; [nia|]. split; [lia|]. split.
    + intros r row' Hr Nr. destruct (Nat.eq_dec r i) as [->|Q]; [rewrite N in Nr; injection Nr as <-; exact H|].
      intros j v Hj Ev. destruct (A3 r row' ltac:(lia) Nr j v Hj Ev) as (t1 & t2 & G1 & G2 & G3 & G4).
      exists t1, t2. repeat split; trivial; rewrite U by nia; trivial.
    + intros k Hk. rewrite U by nia. apply A4. nia.
  - rewrite E. cbn. cbn in A2, A3, A4. exists sym'. split; [trivial|]. split; [trivial|]. split.
    + intros r row N. apply A3; trivial. eapply nth_lt; eauto.
    + exact A4.
Qed.
