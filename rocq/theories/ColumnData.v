(** What the blocks and the buffer hold, in every reachable state without faults. *)
From Verif Require Import Base BaseLemmas TimeBlockBuffer TbbSpec TbbProofs Column ColumnSpec ColumnProofs ColumnInv ColumnReach ColumnTerm.
Local Open Scope N_scope.
Local Arguments busy : simpl never. Local Arguments upd : simpl never. Local Arguments insert : simpl never.
Local Arguments erase : simpl never. Local Arguments cached : simpl never. Local Arguments markWritten : simpl never.
Local Arguments maxCache : simpl never.

Definition has {e} (s : state e) (b : N) (r : nat) (d : list (data e)) (t : tbb (data e)) : Prop :=
  exists rw, nth_error t r = Some rw /\ coded e (rpb s) (nant s) b r d (visibilities rw).

Definition kept {e} (f0 : N -> option (bytes e)) (s : state e) (b : N) (r : nat) (d : list (data e)) : Prop :=
  match last s b with
  | Some x => has s b r d x
  | None => exists y v, f0 b = Some y /\ nth_error (dec e (rpb s) (nant s) b y) r = Some v /\ coded e (rpb s) (nant s) b r d v
  end.

Definition loading {A} (c : list (instr A)) : bool := match c with ILoad _ :: _ => true | _ => false end.

Definition awaits {A} (c : list (instr A)) : bool :=
  match c with
  | ISetRpb _ _ :: _ => false
  | _ => existsb (fun i => match i with IPutRow _ _ => true | _ => false end) c
  end.

Record dinv {e} (f0 : N -> option (bytes e)) (s : state e) : Prop := {
  d_cur : cur s = noBlock \/ cur s < 2 ^ 32;
  d_chg : changed s = true -> cur s <> noBlock;
  d_last : forall b, last s b <> None -> b < 2 ^ 32;
  d_f0 : forall b, f0 b <> None -> b < nblk s;
  d_64 : nblk s < 2 ^ 64;
  d_nblk : forall b, last s b <> None -> cached (cache s) b = false -> b < nblk s;
  d_wr : forall b, In (WWritten b) (workers s) -> b < nblk s;
  d_key : forall row d, closed s = false -> rpb s = 0 -> val s row = Some d ->
    cur s = 0 /\ changed s = true /\ exists rw, nth_error (tb s) (N.to_nat row) = Some rw /\ visibilities rw = d;
  d_pr : awaits (code s) = true -> rpb s <> 0;
  d_tb : closed s = false -> rpb s = 0 -> tb s <> [] -> cur s = 0;
  d_val : forall row d, rpb s <> 0 -> val s row = Some d ->
    (cur s <> row / rpb s \/ changed s = false -> kept f0 s (row / rpb s) (N.to_nat (row mod rpb s)) d) /\
    (cur s = row / rpb s -> changed s = true \/ (closed s = false /\ loading (code s) = false) ->
       has s (row / rpb s) (N.to_nat (row mod rpb s)) d (tb s)) }.

Lemma dinv_workers {e} f0 (s s' : state e) : dinv f0 s ->
  cur s' = cur s -> changed s' = changed s -> tb s' = tb s -> closed s' = closed s -> code s' = code s -> last s' = last s ->
  rpb s' = rpb s -> nant s' = nant s -> val s' = val s -> nblk s <= nblk s' -> nblk s' < 2 ^ 64 ->
  (forall b, last s b <> None -> cached (cache s') b = false -> cached (cache s) b = false \/ b < nblk s') ->
  (forall b, In (WWritten b) (workers s') -> b < nblk s') -> dinv f0 s'.
Proof.
  intros [D1 D2 D3 D4 D5 D6 D7 D8 Dp D8' D9] E1 E2 E3 E4 E5 E6 E7 E8 E9 L1 L2 C W.
  constructor; unfold kept, has in *; rewrite ?E1, ?E2, ?E3, ?E4, ?E5, ?E6, ?E7, ?E8, ?E9 in *; trivial.
  - intros b H. apply D4 in H. lia.
  - intros b H1 H2. destruct (C b H1 H2) as [H|H]; [|trivial]. specialize (D6 b H1 H). lia.
Qed.

(** steps of the calling thread that leave buffer, cache and file alone *)
Lemma dinv_local {e} f0 (s s' : state e) : dinv f0 s ->
  cur s' = cur s -> changed s' = changed s -> tb s' = tb s -> last s' = last s ->
  rpb s' = rpb s -> nant s' = nant s -> val s' = val s -> nblk s' = nblk s -> cache s' = cache s ->
  (forall b, In (WWritten b) (workers s') -> In (WWritten b) (workers s)) ->
  (closed s' = false -> closed s = false) ->
  (closed s' = false -> loading (code s') = false -> loading (code s) = false) ->
  (awaits (code s') = true -> rpb s <> 0) -> dinv f0 s'.
Proof.
  intros [D1 D2 D3 D4 D5 D6 D7 D8 Dp D8' D9] E1 E2 E3 E4 E5 E6 E7 E8 E9 W Cl C Aw.
  constructor; unfold kept, has in *; rewrite ?E1, ?E2, ?E3, ?E4, ?E5, ?E6, ?E7, ?E8, ?E9 in *; auto.
  intros row d Z V. destruct (D9 row d Z V) as (V1 & V2). split; trivial. intros Hc [H|(H1 & H2)]; auto.
Qed.

Lemma val_block {e} f0 (s : state e) row d : dinv f0 s -> rpb s <> 0 -> val s row = Some d -> row / rpb s <> noBlock.
Proof.
  intros D Z V E. destruct (d_val _ _ D row d Z V) as (V1 & _). rewrite E in V1.
  assert (X : cur s <> noBlock \/ changed s = false).
  { destruct (N.eq_dec (cur s) noBlock) as [Q|Q]; [right|now left]. destruct (changed s) eqn:C; trivial. now apply (d_chg _ _ D) in C. }
  specialize (V1 X). unfold kept in V1. destruct (last s noBlock) as [x|] eqn:L.
  - assert (H : last s noBlock <> None) by congruence. apply (d_last _ _ D) in H. unfold noBlock in H. lia.
  - destruct V1 as (y & v & F & _). assert (H : f0 noBlock <> None) by congruence. apply (d_f0 _ _ D) in H.
    pose proof (d_64 _ _ D). unfold noBlock in H. lia.
Qed.

Lemma set_has {e} (s : state e) k r a1 a2 d b r' d' :
  SetData (nSamp e) (tb s) r a1 a2 d = Ok b -> r' <> r -> has s k r' d' (tb s) -> has s k r' d' b.
Proof.
  intros E N (rw & H1 & H2). unfold SetData in E. destruct (Nat.ltb_spec (length d) (nSamp e)) as [L|L]; [discriminate|].
  destruct (set_ok (nSamp e) (tb s) r a1 a2 d L) as (b' & E' & Lb & Rb & Ob).
  unfold SetData in E'. destruct (Nat.ltb_spec (length d) (nSamp e)); [lia|]. rewrite E in E'. injection E' as <-.
  specialize (Ob r' N). unfold row_at in Ob. rewrite H1 in Ob.
  assert (r' < length (tb s))%nat by (apply nth_error_Some; congruence).
  destruct (nth_error b r') as [rw'|] eqn:Eb; [|apply nth_error_None in Eb; lia]. subst rw'. now exists rw.
Qed.

Lemma set_this {A} n (t : tbb A) r a1 a2 d b : SetData n t r a1 a2 d = Ok b -> nth_error b r = Some (DRow a1 a2 (firstn n d)).
Proof.
  intros E. pose proof E as E0. unfold SetData in E0. destruct (Nat.ltb_spec (length d) n) as [L|L]; [discriminate|]. clear E0.
  destruct (set_ok n t r a1 a2 d L) as (b' & E' & Lb & Rb & Ob). rewrite E in E'. injection E' as <-.
  unfold row_at in Rb. destruct (nth_error b r) eqn:Eb; [congruence|]. apply nth_error_None in Eb. lia.
Qed.

Lemma set_other {A} n (t : tbb A) r a1 a2 d b r' rw : SetData n t r a1 a2 d = Ok b -> r' <> r ->
  nth_error t r' = Some rw -> nth_error b r' = Some rw.
Proof.
  intros E N H. pose proof E as E0. unfold SetData in E0. destruct (Nat.ltb_spec (length d) n) as [L|L]; [discriminate|]. clear E0.
  destruct (set_ok n t r a1 a2 d L) as (b' & E' & Lb & Rb & Ob). rewrite E in E'. injection E' as <-.
  specialize (Ob r' N). unfold row_at in Ob. rewrite H in Ob.
  assert (r' < length t)%nat by (apply nth_error_Some; congruence).
  destruct (nth_error b r') as [rw'|] eqn:Eb; [congruence|]. apply nth_error_None in Eb. lia.
Qed.

(** a put into the buffer of the current block *)
Lemma dinv_put {e} f0 (s s1 s' : state e) r row d : dinv f0 s -> row < 2 ^ 32 ->
  file s1 = file s -> rpb s1 = rpb s -> nant s1 = nant s -> cache s1 = cache s -> workers s1 = workers s -> nblk s1 = nblk s ->
  changed s1 = changed s -> tb s1 = tb s -> last s1 = last s -> val s1 = val s -> closed s1 = false -> closed s = false ->
  loading (code s) = false -> awaits (code s1) = false ->
  (rpb s = 0 -> r = row /\ cur s1 = 0) ->
  (rpb s <> 0 -> r = row mod rpb s /\ cur s1 = row / rpb s /\ cur s = row / rpb s) ->
  put_buffer s1 r row d = s' -> status s' = Running -> dinv f0 s'.
Proof.
  intros D Hr F1 F2 F3 F4 F5 F6 F7 F8 F9 F10 F11 F12 Fl Aw Z0 Z1 E R.
  unfold put_buffer in E. rewrite F8 in E.
  destruct (SetData (nSamp e) (tb s) (N.to_nat r) (fst (ants e row)) (snd (ants e row)) d) as [b| |] eqn:S; subst s'; sm; try discriminate.
  pose proof (set_this _ _ _ _ _ _ _ S) as T1.
  destruct D as [D1 D2 D3 D4 D5 D6 D7 D8 Dp D8' D9].
  constructor; unfold kept, has in *; sm; rewrite ?F1, ?F2, ?F3, ?F4, ?F5, ?F6, ?F7, ?F9, ?F10, ?F11 in *; trivial.
  - destruct (N.eq_dec (rpb s) 0) as [Z|Z].
    + destruct (Z0 Z) as (_ & ->). right. lia.
    + destruct (Z1 Z) as (_ & -> & Q). rewrite <- Q. trivial.
  - intros _. destruct (N.eq_dec (rpb s) 0) as [Z|Z].
    + destruct (Z0 Z) as (_ & ->). unfold noBlock. discriminate.
    + destruct (Z1 Z) as (_ & -> & Q). unfold noBlock. pose proof (N.div_le_upper_bound row (rpb s) row Z) as X. nia.
  - intros row' d' _ Z V. destruct (Z0 Z) as (-> & ->). split; trivial. split; trivial.
    unfold upd_map in V. destruct (N.eqb_spec row' row) as [->|Hn].
    + injection V as <-. eexists. split; [exact T1|reflexivity].
    + destruct (D8 row' d' F12 Z V) as (Q1 & Q2 & rw & Q3 & Q4). exists rw. split; trivial.
      apply (set_other _ _ _ _ _ _ _ _ _ S); trivial. lia.
  - congruence.
  - intros _ Z _. now destruct (Z0 Z).
  - intros row' d' Z V. destruct (Z1 Z) as (-> & Q1 & Q2). rewrite Q1. unfold upd_map in V. destruct (N.eqb_spec row' row) as [->|Hn].
    + injection V as <-. split; [intros [H|H]; [congruence|discriminate]|]. intros _ _. eexists. split; [exact T1|]. cbn. constructor.
    + destruct (D9 row' d' Z V) as (V1 & V2). split.
      * intros [H|H]; [|discriminate]. apply V1. left. congruence.
      * intros Hb _. destruct V2 as (rw & V2 & V3); [congruence|now right|]. exists rw. split; [|exact V3].
        apply (set_other _ _ _ _ _ _ _ _ _ S); trivial.
        pose proof (N.div_mod row (rpb s) Z) as A1. pose proof (N.div_mod row' (rpb s) Z) as A2. rewrite Hb in A1.
        intros A. assert (row' mod rpb s = row mod rpb s) by lia. congruence.
Qed.

Lemma dinv_store {e} f0 (s : state e) cc : inv f0 s -> dinv f0 s -> cached (cache s) (cur s) = false -> changed s = true ->
  (closed s = false -> loading cc = true) -> (closed s = false -> rpb s <> 0) -> awaits cc = false ->
  dinv f0 (notify (set_last (set_buf (set_threads (set_code s cc) (insert (cur s) (tb s, false) (cache s)) (stopF s) (workers s)) (cur s) false [])
                                   (upd_map (last s) (cur s) (tb s)))).
Proof.
  intros I D C Ch L P Aw. destruct D as [D1 D2 D3 D4 D5 D6 D7 D8 Dp D8' D9].
  assert (Nb : cur s < 2 ^ 32) by (destruct D1 as [D1|]; [now apply D2 in Ch|trivial]).
  constructor; unfold kept, has in *; sm; trivial.
  - discriminate.
  - intros b H. destruct (N.eq_dec b (cur s)) as [Q|Q]; [congruence|]. rewrite upd_map_other in H by trivial. auto.
  - intros b H1 H2. rewrite cached_insert in H2 by trivial. apply orb_false_iff in H2. destruct H2 as (H2 & H3).
    apply N.eqb_neq in H2. rewrite upd_map_other in H1 by trivial. auto.
  - intros b Hb. apply wake_In in Hb. destruct Hb as (_ & [Hb|(Hb & _)]); [auto|discriminate].
  - intros row d Cl Z V. exfalso. apply (P Cl Z).
  - congruence.
  - intros Cl Z V. now contradict V.
  - intros row d Z V. destruct (D9 row d Z V) as (V1 & V2). split.
    + intros _. unfold upd_map. destruct (N.eqb_spec (row / rpb s) (cur s)) as [Q|Q].
      * apply V2; auto.
      * apply V1. auto.
    + intros _ [H|(H1 & H2)]; [discriminate|]. rewrite L in H2 by trivial. discriminate.
Qed.

Lemma decoded_nth {e} rp b (rows : list (list (data e))) r v : nth_error rows r = Some v ->
  exists rw, nth_error (decoded e rp b rows) r = Some rw /\ visibilities rw = v.
Proof.
  intros H. assert (L : (r < length rows)%nat) by (apply nth_error_Some; congruence).
  unfold decoded. rewrite nth_error_map.
  assert (X : nth_error (combine (seq 0 (length rows)) rows) r = Some (r, v)).
  { assert (G : forall k (rows : list (list (data e))) r v, nth_error rows r = Some v ->
      nth_error (combine (seq k (length rows)) rows) r = Some ((k + r)%nat, v)).
    { intros k rows0. revert k. induction rows0 as [|a l IH]; intros k [|r0] v0; cbn; try discriminate.
      - intros [= ->]. f_equal. f_equal. lia.
      - intros H0. rewrite (IH (S k) r0 v0 H0). f_equal. f_equal. lia. }
    now rewrite (G 0%nat rows r v H). }
  rewrite X. cbn. now eexists.
Qed.

Lemma dinv_load {e} f0 (s s' : state e) junk row c : rows_kept e -> inv f0 s -> dinv f0 s -> rpb s <> 0 -> row < 2 ^ 32 ->
  changed s = false -> cur s <> row / rpb s -> load junk (set_code s c) (row / rpb s) = s' -> status s' = Running -> faults s' = [] -> awaits c = false ->
  dinv f0 s'.
Proof.
  intros RK I D Z Hr Ch Hc E R F Aw.
  assert (Nb : row / rpb s < 2 ^ 32).
  { pose proof (N.div_le_upper_bound row (rpb s) row Z). nia. }
  assert (X : cached (cache s) (row / rpb s) = false /\
    exists t, s' = set_buf (set_code s c) (row / rpb s) false t /\
      forall row' d, val s row' = Some d -> row' / rpb s = row / rpb s -> has s (row / rpb s) (N.to_nat (row' mod rpb s)) d t).
  { unfold load in E. sm. destruct (cached (cache s) (row / rpb s)) eqn:Cd.
    { sm. exfalso. destruct (_ <? _); [destruct (file s _); [|destruct junk]|]; subst s'; sm; discriminate. }
    split; trivial. cbn zeta in E. sm. destruct (N.ltb_spec (row / rpb s) (nblk s)) as [Lb|Lb].
    - destruct (file s (row / rpb s)) as [y|] eqn:Ef.
      + eexists. split; [symmetry; exact E|]. intros row' d V B.
        destruct (d_val _ _ D row' d Z V) as (V1 & _). rewrite B in V1. specialize (V1 (or_introl Hc)). unfold kept in V1.
        destruct (last s (row / rpb s)) as [x|] eqn:Lx.
        * destruct V1 as (rw & V1 & V2). destruct (i_disk _ _ I _ _ Lx Cd) as (y' & Y1 & Y2).
          assert (y' = y) by congruence. subst y'.
          assert (Hl : (N.to_nat (row' mod rpb s) < length (dec e (rpb s) (nant s) (row / rpb s) y))%nat).
          { specialize (RK _ _ (row / rpb s) _ _ Y2). assert (N.to_nat (row' mod rpb s) < length x)%nat by (apply nth_error_Some; congruence). lia. }
          destruct (nth_error (dec e (rpb s) (nant s) (row / rpb s) y) (N.to_nat (row' mod rpb s))) as [v|] eqn:Ev;
            [|apply nth_error_None in Ev; lia].
          destruct (decoded_nth (rpb s) (row / rpb s) _ _ _ Ev) as (rw' & R1 & R2). exists rw'. split; trivial. rewrite R2.
          now apply (coded_pass e _ _ _ _ _ (visibilities rw) v x y rw).
        * destruct V1 as (y' & v & Y1 & Y2 & Y3). rewrite (i_file _ _ I _ Lx) in Ef. assert (y' = y) by congruence. subst y'.
          destruct (decoded_nth (rpb s) (row / rpb s) _ _ _ Y2) as (rw' & R1 & R2). exists rw'. split; trivial. now rewrite R2.
      + assert (NV : forall row' d, val s row' = Some d -> row' / rpb s = row / rpb s -> False).
        { intros row' d V B. destruct (d_val _ _ D row' d Z V) as (V1 & _). rewrite B in V1. specialize (V1 (or_introl Hc)). unfold kept in V1.
          destruct (last s (row / rpb s)) as [x|] eqn:Lx.
          - destruct (i_disk _ _ I _ _ Lx Cd) as (y' & Y1 & Y2). congruence.
          - destruct V1 as (y' & v & Y1 & Y2 & Y3). rewrite (i_file _ _ I _ Lx) in Ef. congruence. }
        destruct junk; subst s'; sm; [|discriminate]. eexists. split; [reflexivity|]. intros row' d V B. destruct (NV _ _ V B).
    - eexists. split; [symmetry; exact E|]. intros row' d V B. exfalso.
      destruct (d_val _ _ D row' d Z V) as (V1 & _). rewrite B in V1. specialize (V1 (or_introl Hc)). unfold kept in V1.
      destruct (last s (row / rpb s)) as [x|] eqn:Lx.
      + assert (row / rpb s < nblk s) by (apply (d_nblk _ _ D); congruence). lia.
      + destruct V1 as (y' & v & Y1 & _). assert (row / rpb s < nblk s) by (apply (d_f0 _ _ D); congruence). lia. }
  destruct X as (Cd & t & -> & Ht). destruct D as [D1 D2 D3 D4 D5 D6 D7 D8 Dp D8' D9].
  constructor; unfold kept, has in *; sm; trivial.
  - now right.
  - discriminate.
  - intros row' d _ Z'. congruence.
  - intros _ Z'. congruence.
  - intros row' d _ V. split.
    + intros _. destruct (D9 row' d Z V) as (V1 & _). apply V1. auto.
    + intros B _. symmetry in B. rewrite B. now apply (Ht row' d).
Qed.

Lemma faults_nil_before {e} (s s' : state e) : step s s' -> faults s' = [] -> faults s = [].
Proof.
  intros S F. inversion S as [? St|a R0 C0 C1 A|k H|H|n H1 H2 H3]; subst; trivial.
  inversion St as [junk i c ? _ Hc Mw E|k w y s1 w1 _ Hw Hy E]; subst.
  - assert (P : forall (t : state e) r row d, faults (put_buffer t r row d) = faults t).
    { intros. unfold put_buffer. destruct (SetData _ _ _ _ _ _); auto. }
    assert (Ld : forall (t : state e) b, faults (load junk t b) = [] -> faults t = []).
    { intros t b. unfold load. destruct (cached _ _); cbn; destruct (_ <? _)%N; [destruct (file t b); [|destruct junk]| |destruct (file t b); [|destruct junk]|]; cbn; trivial; discriminate. }
    destruct i; cbn [exec] in E;
      repeat match type of E with
      | (if ?b then _ else _) = Some _ => destruct b
      | match ?b with _ => _ end = Some _ => destruct b eqn:?
      end; try discriminate; injection E as <-; rewrite ?P in F;
      try (destruct (_ && _)); try (destruct (changed s)); try (destruct (rpb s =? 0)%N); cbn in F; trivial; try discriminate.
    all: now apply Ld in F.
  - destruct w as [| | |b x|b|]; cbn [wexec] in E; unfold pick in E;
      repeat match type of E with
      | (if ?b then _ else _) = Some _ => destruct b
      | match match ?b with _ => _ end with _ => _ end = Some _ => destruct b
      | match ?b with _ => _ end = Some _ => destruct b
      end; try discriminate; injection E as <- <-; exact F.
Qed.

Lemma dinv_worker {e} f0 (s s' : state e) k w w' y :
  inv f0 s -> dinv f0 s -> nth_error (workers s) k = Some w -> wexec y s w = Some (s', w') -> dinv f0 (set_worker s' k w').
Proof.
  intros I D H E.
  assert (W : forall w0 l, nth_error l k = Some w -> (forall b, w0 <> WWritten b) ->
    (forall b, In (WWritten b) l -> In (WWritten b) (workers s)) -> forall b, In (WWritten b) (upd l k w0) -> b < nblk s).
  { intros w0 l Hl Hn Hi b Hin. destruct (upd_split l k w w0 Hl) as (l1 & l2 & E1 & E2). rewrite E2 in Hin.
    apply (d_wr _ _ D). apply Hi. rewrite E1. apply in_app_iff in Hin. apply in_app_iff.
    destruct Hin as [Hin|[Hin|Hin]]; [now left|now apply Hn in Hin|right; now right]. }
  assert (P : forall s1 w1, pick s = Some (s1, w1) -> dinv f0 (set_worker s1 k w1)).
  { intros s1 w1 Ep. unfold pick in Ep. destruct (isWriteItemAvailable (cache s)) as [(b & x)|]; [|discriminate].
    injection Ep as <- <-. apply (dinv_workers f0 s); trivial; sm; try reflexivity; try lia; try apply D.
    - intros b'. cbn. rewrite mark_cached. auto.
    - cbn. apply W; trivial. discriminate. }
  assert (Lw : forall w1, (forall b, w1 <> WWritten b) -> dinv f0 (set_worker s k w1)).
  { intros w1 Hn. apply (dinv_workers f0 s); trivial; sm; try reflexivity; try lia; try apply D; cbn; auto. apply W; trivial. }
  destruct w as [| | |b x|b|]; cbn [wexec] in E; try discriminate.
  - destruct (stopF s); [injection E as <- <-; apply Lw; discriminate|].
    destruct (pick s) as [(s1 & w1)|] eqn:Ep; injection E as <- <-; [auto|apply Lw; discriminate].
  - destruct (pick s) as [(s1 & w1)|] eqn:Ep; injection E as <- <-; [auto|apply Lw; destruct (stopF s); discriminate].
  - destruct (encodable _ _ _ _); [destruct (mgr s); [discriminate|]|]; injection E as <- <-.
    + assert (Hb : b < 2 ^ 32).
      { apply (d_last _ _ D). apply nth_error_In in H. apply (i_picked _ _ I) in H. apply (i_last _ _ I) in H. congruence. }
      pose proof (d_64 _ _ D) as D64.
      assert (Nn : nblk s <= (if nblk s <=? b then (b + 1) mod 2 ^ 64 else nblk s) /\ b < (if nblk s <=? b then (b + 1) mod 2 ^ 64 else nblk s)
        /\ (if nblk s <=? b then (b + 1) mod 2 ^ 64 else nblk s) < 2 ^ 64).
      { destruct (N.leb_spec (nblk s) b); [|lia]. rewrite N.mod_small by lia. lia. }
      apply (dinv_workers f0 s); trivial; sm; try reflexivity; cbn; try tauto.
      intros b' Hin. destruct (upd_split (workers s) k (WPicked b x) (WWritten b) H) as (l1 & l2 & E1 & E2). rewrite E2 in Hin.
      assert (X : b' = b \/ In (WWritten b') (workers s)).
      { rewrite E1. rewrite in_app_iff in *. destruct Hin as [Hin|[Hin|Hin]]; [auto|left; congruence|right; right; now right]. }
      destruct X as [->|X]; [tauto|]. apply (d_wr _ _ D) in X. destruct Nn as (N1 & _). exact (N.lt_le_trans _ _ _ X N1).
    + apply (dinv_workers f0 s); trivial; sm; try reflexivity; try lia; try apply D; cbn; auto. apply W; trivial. discriminate.
  - injection E as <- <-. apply (dinv_workers f0 s); trivial; sm; try reflexivity; try lia; try apply D.
    + intros b'. cbn. rewrite cached_erase. destruct (N.eqb_spec b' b) as [->|]; [|auto].
      intros _ _. right. apply (d_wr _ _ D). eapply nth_error_In; eauto.
    + cbn. apply W; [rewrite nth_error_map, H; reflexivity|discriminate|].
      intros b' Hin. apply wake_In in Hin. destruct Hin as (_ & [Hin|(Hx & _)]); [trivial|discriminate].
Qed.

Ltac dloc f0 s := apply (dinv_local f0 s); trivial; sm; try reflexivity; auto; try (cbn; congruence); try assumption;
  try match goal with D : dinv f0 s |- awaits _ = true -> rpb s <> 0 => first [apply (d_pr _ _ D) | cbn; discriminate] end.

Lemma dinv_main {e} f0 (s s' : state e) junk i c :
  (nthreads e <> 0)%nat -> rows_kept e -> inv f0 s -> dinv f0 s -> status s = Running -> code s = i :: c -> mwait s = false ->
  exec junk s i c = Some s' -> status s' = Running -> faults s' = [] -> dinv f0 s'.
Proof.
  intros NT RK I D R Hc Mw E R' F.
  pose proof (i_phase _ _ I) as P. rewrite Hc in P.
  assert (WW : forall b, In (WWritten b) (repeat (@WTop (data e)) (nthreads e)) -> In (WWritten b) (workers s)).
  { intros b Hb. apply repeat_spec in Hb. discriminate. }
  assert (WK : forall (l : list (wpc (data e))) b, In (WWritten b) (map wake l) -> In (WWritten b) l).
  { intros l b Hb. apply wake_In in Hb. destruct Hb as (_ & [Hb|(Hb & _)]); [trivial|discriminate]. }
  assert (AW : awaits (i :: c) = true -> rpb s <> 0) by (rewrite <- Hc; apply D).
  assert (HB : base s -> closed s = false) by (intros X; apply X).
  inversion P; subst; clear P;
    try match goal with H : maybe_store ?st ++ _ = _ |- _ => destruct st eqn:Est; cbn [maybe_store app] in H; injection H as <- <- end;
    try match goal with H : base s |- _ => pose proof (HB H) as Cl end;
    match type of Hc with code s = ILoad _ :: _ => idtac | _ => assert (LD : loading (code s) = false) by (rewrite Hc; reflexivity) end;
    cbn [exec] in E.
  - destruct (N.eqb_spec (rpb s) 0) as [Z|Z].
    + destruct (Empty (tb s)) eqn:Em; [|destruct (keys_differ e row (keyrow s))]; injection E as E.
      * eapply (dinv_put f0 s); try exact E; trivial; try easy; try congruence.
      * subst s'. dloc f0 s.
      * assert (Hcur : cur s = 0). { apply (d_tb _ _ D); trivial. destruct (tb s); [discriminate|easy]. }
        eapply (dinv_put f0 s); try exact E; trivial; try easy; try congruence.
    + injection E as <-. dloc f0 s.
  - assert (Z : rpb s <> 0) by (apply (d_pr _ _ D); rewrite Hc; reflexivity). apply N.eqb_neq in Z. rewrite Z in E. apply N.eqb_neq in Z.
    destruct (N.eqb_spec (row / rpb s) (cur s)) as [Q|Q]; injection E as <-; dloc f0 s.
  - injection E as E. eapply (dinv_put f0 s); try exact E; trivial; try easy.
  - destruct ((maxCache e <=? length (cache s))%nat || cached (cache s) (cur s)) eqn:W; injection E as <-; [dloc f0 s|].
    apply orb_false_iff in W. destruct W as (W1 & W2). now apply dinv_store.
  - injection E as E. eapply dinv_load; eauto.
  - destruct (N.eqb_spec (rpb s) 0) as [Z|Z]; [injection E as <-; dloc f0 s|].
    destruct (nblk s <=? row / rpb s); injection E as <-; dloc f0 s.
  - destruct (cached (cache s) (row / rpb s)) eqn:W; injection E as <-; dloc f0 s.
  - destruct (N.eqb_spec (row / rpb s) (cur s)) as [Q|Q]; injection E as <-; dloc f0 s.
  - destruct ((maxCache e <=? length (cache s))%nat || cached (cache s) (cur s)) eqn:W; injection E as <-; [dloc f0 s|].
    apply orb_false_iff in W. destruct W as (W1 & W2). now apply dinv_store.
  - injection E as E. eapply dinv_load; eauto.
  - destruct (GetData (tb s) (N.to_nat (row mod rpb s))); injection E as <-; sm; try discriminate. dloc f0 s.
  - injection E as <-. destruct ((N.of_nat (length (tb s)) <=? n) && negb (n =? 0)) eqn:Q; [|discriminate].
    apply andb_true_iff in Q. destruct Q as (Q1 & Q2). apply N.leb_le in Q1. apply negb_true_iff, N.eqb_neq in Q2.
    destruct D as [D1 D2 D3 D4 D5 D6 D7 D8 Dp D8' D9]. constructor; unfold kept, has; sm; trivial.
    + intros row d _ Z. congruence.
    + intros _ Z. congruence.
    + intros row d _ V. destruct (D8 row d Cl H2 V) as (V1 & V2 & rw & V3 & V4).
      assert (Hl : (N.to_nat row < length (tb s))%nat) by (apply nth_error_Some; congruence).
      assert (Hr : row < n) by lia. rewrite N.div_small, N.mod_small by trivial. rewrite V1, V2. split.
      * intros [X|X]; [congruence|discriminate].
      * intros _ _. exists rw. split; trivial. rewrite V4. constructor.
  - destruct H3 as (Q1 & Q2). rewrite Q1 in E. destruct (workers s) as [|w ws] eqn:Ew; injection E as <-; rewrite <- ?Ew; dloc f0 s.
  - destruct (forallb _ (workers s)); [|discriminate]. injection E as <-. dloc f0 s; easy.
  - injection E as <-. dloc f0 s.
    + intros b. rewrite in_app_iff. intros [|]; auto.
    + destruct H5 as [->|(row & d & Hr & ->)]; [easy|]. intros _. now apply AW.
  - injection E as <-. dloc f0 s.
  - destruct (workers s) as [|w ws] eqn:Ew; destruct (cache s) as [|p ps] eqn:Cs; injection E as <-; try discriminate; dloc f0 s; rewrite ?Ew; auto; try apply (WK (w :: ws)).
  - destruct (forallb _ (workers s)); [|discriminate]. injection E as <-. dloc f0 s; easy.
  - injection E as <-. destruct (changed s) eqn:Ch; [discriminate|]. 
    pose proof D as D0. destruct D as [D1 D2 D3 D4 D5 D6 D7 D8 Dp D8' D9]. constructor; unfold kept, has; sm; trivial.
    + now left.
    + congruence.
    + intros row d Cl Z V. destruct (D8 row d Cl Z V) as (_ & X & _). congruence.
    + intros _ _ X. now contradict X.
    + intros row d Z V. destruct (D9 row d Z V) as (V1 & V2). split; [intros _; apply V1; now right|].
      intros X. symmetry in X. now apply (val_block f0 s row d D0) in X.
  - destruct (N.eqb_spec (rpb s) 0) as [Z|Z]; injection E as <-; dloc f0 s.
  - rewrite H3, H4 in E. injection E as <-. dloc f0 s.
  - injection E as <-. dloc f0 s. intros b. rewrite in_app_iff. intros [|]; auto.
  - injection E as <-. dloc f0 s.
  - injection E as <-. dloc f0 s. destruct (changed s); discriminate.
  - destruct ((maxCache e <=? length (cache s))%nat || cached (cache s) (cur s)) eqn:W; injection E as <-; [dloc f0 s|].
    apply orb_false_iff in W. destruct W as (W1 & W2). apply dinv_store; trivial; congruence.
  - destruct (workers s) as [|w ws] eqn:Ew; destruct (cache s) as [|p ps] eqn:Cs; injection E as <-; try discriminate; dloc f0 s; rewrite ?Ew; auto; try apply (WK (w :: ws)).
  - destruct (forallb _ (workers s)); [|discriminate]. injection E as <-. dloc f0 s; easy.
Qed.

Lemma dinv_start {e} (s : state e) : starts s -> dinv (file s) s.
Proof.
  intros [|f nb rp na Hr Hn Hf].
  - constructor; cbn; trivial; try easy; try lia.
  - constructor; cbn; trivial; try easy; try lia.
    + intros b H. apply repeat_spec in H. discriminate.
    + intros row d _ V. unfold kept, has. cbn. destruct (f (row / rp)) as [y|] eqn:Ef; [|discriminate]. split.
      * intros _. exists y, d. repeat split; trivial. constructor.
      * intros Q _. exfalso. assert (X : f (row / rp) <> None) by congruence. apply Hf in X. unfold noBlock in Q. lia.
Qed.

Lemma dinv_step {e} f0 (s s' : state e) : (nthreads e <> 0)%nat -> rows_kept e -> inv f0 s -> dinv f0 s -> status s = Running -> step s s' ->
  status s' = Running -> faults s' = [] -> dinv f0 s'.
Proof.
  intros NT RK I D R S R' F. inversion S as [? St|a R0 C0 C1 A|k H|H|n H1 H2 H3]; subst.
  - inversion St as [junk i c ? _ Hc Mw E|k w y s1 w1 _ Hw Hy E]; subst.
    + eapply dinv_main; eauto.
    + eapply dinv_worker; eauto.
  - apply (dinv_local f0 s); trivial; cbn.
    + rewrite C0. trivial.
    + destruct a; discriminate.
  - apply (dinv_workers f0 s); trivial; cbn; try lia; try apply D; auto.
    intros b Hb. apply (d_wr _ _ D). destruct (upd_split (workers s) k WWait WWoken H) as (l1 & l2 & E1 & E2).
    rewrite E2 in Hb. rewrite E1. rewrite in_app_iff in *. cbn [In] in *. destruct Hb as [Hb|[Hb|Hb]]; [tauto|discriminate|tauto].
  - apply (dinv_local f0 s); trivial; cbn; auto. apply D.
  - apply (dinv_workers f0 s); trivial; cbn; auto. intros b Hb. apply (d_wr _ _ D) in Hb. lia.
Qed.

Lemma dinv_reach {e} (s0 s : state e) : (nthreads e <> 0)%nat -> rows_kept e -> starts s0 -> reach s0 s -> status s = Running ->
  faults s = [] -> dinv (file s0) s.
Proof.
  intros NT RK S0 H. induction H as [|s s' H IH St]; intros R F.
  - now apply dinv_start.
  - pose proof (step_running _ _ St R) as R0. pose proof (faults_nil_before _ _ St F) as F0.
    eapply dinv_step; eauto. now apply inv_reach.
Qed.

(** * C34: every row whose contents are known is in the file after the column is closed *)
Lemma rows_on_disk {e} (s0 s : state e) : (nthreads e <> 0)%nat -> rows_kept e -> starts s0 -> reach s0 s -> status s = Running ->
  closed s = true -> code s = [] -> faults s = [] -> rpb s <> 0 -> forall row d, val s row = Some d ->
  exists y v, file s (row / rpb s) = Some y /\
    nth_error (dec e (rpb s) (nant s) (row / rpb s) y) (N.to_nat (row mod rpb s)) = Some v /\
    coded e (rpb s) (nant s) (row / rpb s) (N.to_nat (row mod rpb s)) d v.
Proof.
  intros NT RK S0 H R C1 C2 F Z row d V.
  pose proof (dinv_reach s0 s NT RK S0 H R F) as D. pose proof (inv_reach s0 s NT S0 H R) as I.
  destruct (on_disk s0 s NT S0 H R C1 C2) as (Q1 & Q2 & Q3 & Q4).
  assert (Ch : changed s = false).
  { pose proof (i_phase _ _ I) as P. rewrite C2 in P. inversion P as [B|?|?|?|?|?|?|?|?|?|?|?|?|?|?|?|?|?|?|?|?|?|?|?|?|?|? ? Ch W C];
      try (match goal with H : maybe_store ?st ++ _ = _ |- _ => destruct st; discriminate end); trivial. destruct B. congruence. }
  destruct (d_val _ _ D row d Z V) as (V1 & _). specialize (V1 (or_intror Ch)). unfold kept in V1.
  destruct (last s (row / rpb s)) as [x|] eqn:L.
  - destruct V1 as (rw & V1 & V2). destruct (Q3 _ _ L) as (y & Y1 & Y2). specialize (RK _ _ (row / rpb s) _ _ Y2).
    assert (Hl : (N.to_nat (row mod rpb s) < length x)%nat) by (apply nth_error_Some; congruence).
    destruct (nth_error (dec e (rpb s) (nant s) (row / rpb s) y) (N.to_nat (row mod rpb s))) as [v|] eqn:Ev; [|apply nth_error_None in Ev; lia].
    exists y, v. repeat split; trivial. now apply (coded_pass e _ _ _ _ _ (visibilities rw) v x y rw).
  - destruct V1 as (y & v & Y1 & Y2). exists y, v. rewrite Q4; auto.
Qed.

(** * C35: what a read gives *)
Lemma reads_back {e} (s0 s s' : state e) row a d : (nthreads e <> 0)%nat -> rows_kept e -> starts s0 -> reach s0 s ->
  status s = Running -> faults s = [] -> istep s s' -> outs s' = (row, a) :: outs s -> val s row = Some d ->
  (a = AZero /\ (rpb s = 0 \/ nblk s <= row / rpb s)) \/
  (exists v, a = AVals v /\ coded e (rpb s) (nant s) (row / rpb s) (N.to_nat (row mod rpb s)) d v).
Proof.
  intros NT RK S0 H R F St O V.
  assert (NC : forall (x : N * answer (data e)) l, l = x :: l -> False).
  { intros x l Q. apply (f_equal (@length _)) in Q. cbn in Q. lia. }
  pose proof (dinv_reach s0 s NT RK S0 H R F) as D. pose proof (inv_reach s0 s NT S0 H R) as I.
  inversion St as [junk i c ? _ Hc Mw E|k w y s1 w1 _ Hw Hy E]; subst.
  - assert (P : forall (t : state e) r row d, outs (put_buffer t r row d) = outs t).
    { intros. unfold put_buffer. destruct (SetData _ _ _ _ _ _); auto. }
    assert (Ld : forall (t : state e) b, outs (load junk t b) = outs t).
    { intros t b. unfold load. destruct (cached _ _); cbn; destruct (_ <? _)%N; [destruct (file t b); [|destruct junk]| |destruct (file t b); [|destruct junk]|]; cbn; trivial; discriminate. }
    destruct i; cbn [exec] in E;
      repeat match type of E with
      | (if ?b then _ else _) = Some _ => destruct b eqn:?
      | match ?b with _ => _ end = Some _ => destruct b eqn:?
      end; try discriminate; injection E as <-; rewrite ?P, ?Ld in O;
      repeat match type of O with outs (if ?b then _ else _) = _ => destruct b end; cbn in O; try (now apply NC in O).
    + injection O as -> <-. left. split; trivial. left. now apply N.eqb_eq.
    + injection O as -> <-. left. split; trivial. right. now apply N.leb_le.
    + injection O as -> <-. right. eexists. split; [reflexivity|].
      pose proof (i_phase _ _ I) as Ph. rewrite Hc in Ph.
      inversion Ph as [| | | | | | | |? ? ? ? ? ? ? ? Q|? B Hr Z Hcur Q| | | | | | | | | | | | | | | | |];
        try (match goal with H : maybe_store ?st ++ _ = _ |- _ => destruct st; discriminate end). subst.
      destruct (d_val _ _ D row d Z V) as (_ & V2). destruct V2 as (rw & V2 & V3); trivial.
      * right. rewrite Hc. split; [apply B|reflexivity].
      * unfold GetData in Heqr. rewrite V2 in Heqr. cbn in Heqr. congruence.
  - destruct w as [| | |b x|b|]; cbn [wexec] in E; unfold pick in E;
      repeat match type of E with
      | (if ?b then _ else _) = Some _ => destruct b
      | match match ?b with _ => _ end with _ => _ end = Some _ => destruct b
      | match ?b with _ => _ end = Some _ => destruct b
      end; try discriminate; injection E as <- <-; cbn in O; now apply NC in O.
Qed.
