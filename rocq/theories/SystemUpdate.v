(** Overwriting rows of an opened table, all columns. *)
From Verif Require Import Base BaseLemmas Floats TimeBlockBuffer TbbSpec BitStream BytePacker File FileProofs StMan StManSpec HeaderProofs StManProofs.
From Verif Require Import StochasticEncoder TimeBlockEncoders TbeSpec Weights WeightSpec Block BlockSpec Column ColumnSpec ColumnProofs ColumnInv ColumnReach ColumnTerm ColumnData ColumnOrder ColumnWhole ColumnAmong ColumnRead
  StoredColumn StoredProofs System SystemSpec UpdateSpec SessionSpec SystemLow SystemCols SystemInv SystemOrder SystemEnd SystemRead SystemTotal SystemGood SystemWrite SystemTerm SystemPuts SystemFinal SystemAll UpdateBlock ColumnUpdate SystemHeld.
From Coq Require Import ZifyNat ZifyN Eqdep_dec.
Local Open Scope N_scope.
Local Arguments System.colenv : simpl never.

(** ** What was put last *)
Section last_put.
Context (cfg : nat -> coldef) (T : table) (nt : nat).
Lemma last_put_other l i row d j r : j <> i -> last_put cfg T nt (existT _ i (row, d) :: l) j r = last_put cfg T nt l j r.
Proof. intros Nj. cbn [last_put]. destruct (Nat.eq_dec i j); [congruence|reflexivity]. Qed.

Lemma last_put_here l i row d r : last_put cfg T nt (existT _ i (row, d) :: l) i r = if row =? r then Some d else last_put cfg T nt l i r.
Proof. cbn [last_put]. destruct (Nat.eq_dec i i) as [Q|Q]; [|congruence]. rewrite (UIP_dec Nat.eq_dec Q eq_refl). reflexivity. Qed.
End last_put.

Lemma row_ok_firstn c k d : row_ok c d -> row_ok c (firstn k d).
Proof. destruct c; cbn [row_ok]; trivial. intros H. apply Forall_forall. intros v Hv. rewrite Forall_forall in H. apply H. rewrite <- (firstn_skipn k d). apply in_or_app. now left. Qed.

Section update.
Context (cfg : nat -> coldef) (T : table) (nt A : nat).
Hypotheses (NT : nt <> 0%nat) (HA : forall r, (fst (t_ants T r) < A)%nat /\ (snd (t_ants T r) < A)%nat) (A32 : N.of_nat A < 2 ^ 32).
Context (m0 : stman) (K : N) (L : nat -> f32) (n : N) (na : nat).
Hypotheses (New : new_table cfg m0) (Co : forall i, coldef_ok (cfg i) (L i)) (Zn : 0 < n) (N32 : n < 2 ^ 32) (Na32 : N.of_nat na < 2 ^ 32)
  (Tot : total n (N.of_nat na) (columns m0) < 2 ^ 32)
  (Af : forall i, (i < length (columns m0))%nat -> af_of (cfg i) = true -> forall r, (fst (t_ants T r) < na)%nat /\ (snd (t_ants T r) < na)%nat).
Notation sys := (sys cfg T nt).
Notation cst := (cst cfg T nt). Notation man := (man cfg T nt). Notation active := (active cfg T nt).
Notation ncol := (ncol cfg T nt). Notation running := (running cfg T nt). Notation colenv := (colenv cfg T nt).
Notation held := (held cfg T nt m0 K n na).
Notation last_put := (last_put cfg T nt). Notation put_ok := (put_ok cfg T nt).
Context (m : stman) (ok : N -> Prop).
Hypotheses (Hm : held m) (Okr : forall r, ok r -> r < K).
Notation nb := (nBlocksInFile m).
Notation dsk := (disk_of cfg T nt m).
Notation session := (sys_updating cfg T nt ok m).

Lemma sound_rows i y b : sound T nt (cfg i) n na y -> length (dec (colenv i) n na b y) = N.to_nat n /\
  Forall (fun v => length v = nSamp (colenv i) /\ row_ok (cfg i) v) (dec (colenv i) n na b y).
Proof. intros H. exact (H b). Qed.

Lemma dsk_sound i b y : dsk i b = Some y -> sound T nt (cfg i) n na y.
Proof.
  unfold disk_of. destruct (nth_error (columns m) i) as [col|] eqn:Hc; [|easy]. intros Hd. assert (Hb : b < nb) by (unfold disk in Hd; destruct (N.ltb_spec b nb); [trivial|discriminate]).
  destruct (held_disk cfg T nt m0 K n na m i col b Hm Hc Hb) as (y' & D1 & _ & D2). assert (y' = y) by congruence. now subst.
Qed.

Lemma dsk_readable i : (i < length (columns m))%nat -> readable (dsk i) n na ok.
Proof.
  intros Hi. split.
  - intros r Hr. unfold disk_of. destruct (nth_error (columns m) i) as [col|] eqn:Hc; [|apply nth_error_None in Hc; lia].
    destruct (held_disk cfg T nt m0 K n na m i col (r / n) Hm Hc) as (y & -> & _); [|easy].
    apply (hd_blocks _ _ _ _ _ _ _ _ Hm). specialize (Okr r Hr). pose proof (N.mul_div_le r n ltac:(lia)). lia.
  - intros b y Hy. destruct (sound_rows i y b (dsk_sound i b y Hy)) as (L1 & L2). split; trivial. eapply Forall_impl; [|exact L2]. intros v Hv. apply Hv.
Qed.

Notation upds := (fun j => updating (e := colenv j) (dsk j) nb n na ok (put_ok j)).

Record UP (l : list (put_call cfg T nt)) (bs : nat -> N) (S : sys) : Prop := {
  up_run : running S;
  up_held : held (man S);
  up_nb : nBlocksInFile (man S) = nb;
  up_cols : columns (man S) = columns m;
  up_col : forall j, (j < ncol S)%nat -> exists W, (forall r, W r = last_put l j r) /\ upds j W (bs j) (cst S j) }.

Lemma put_length i d : put_ok i d -> (nSamp (colenv i) <= length d)%nat.
Proof. intros (H & _). exact H. Qed.

Lemma col_af i : (i < length (columns m))%nat -> af (colenv i) = true -> forall r, (fst (ants (colenv i) r) < na)%nat /\ (snd (ants (colenv i) r) < na)%nat.
Proof. intros Hi. apply (Af i). destruct (held_shape cfg T nt m0 K n na New Zn N32 Na32 Tot m Hm) as (_ & _ & _ & Q & _); trivial. lia. Qed.

Lemma up_uinv l bs S i : UP l bs S -> (i < ncol S)%nat -> exists W, (forall r, W r = last_put l i r) /\ upds i W (bs i) (cst S i) /\
  uinv (dsk i) nb n na ok (put_ok i) W (bs i) (cst S i) /\ inv (dsk i) (cst S i).
Proof.
  intros U Hi. destruct (up_col _ _ _ U i Hi) as (W & EW & Hu). exists W. split; trivial. split; trivial.
  assert (Hi' : (i < length (columns m))%nat) by (unfold System.ncol in Hi; now rewrite (up_cols _ _ _ U) in Hi).
  pose proof (uinv_updating (dsk i) nb n na ok (put_ok i) ltac:(lia) (hd_small _ _ _ _ _ _ _ _ Hm) (disk_within cfg T nt m i) (dsk_readable i Hi') (put_length i) NT (col_af i Hi') W (bs i) (cst S i) Hu) as Ui.
  split; trivial. refine (inv_reach (e := colenv i) _ _ NT _ (updating_reach _ _ _ _ _ _ _ _ _ Hu) (u_run _ _ _ _ _ _ _ _ _ Ui)).
  apply (S0 (dsk i) nb n na); [lia|apply (hd_small _ _ _ _ _ _ _ _ Hm)|apply disk_within].
Qed.

(** the rows of a block that is written *)
Lemma block_rows i W b x : (forall r d, W r = Some d -> put_ok i d) -> updated_block (e := colenv i) (dsk i) n na W b x ->
  length x = N.to_nat n /\ (forall k row, nth_error x k = Some row -> (antenna1 row, antenna2 row) = t_ants T (b * n + N.of_nat k)) /\
  forall row, In row x -> length (visibilities row) = (nPol_of (cfg i) * nChan_of (cfg i))%nat /\ row_ok (cfg i) (visibilities row).
Proof.
  intros HW (Lx & Hx). split; trivial. split; [intros k row Hk; exact (proj1 (Hx k row Hk))|]. intros row Hin. apply In_nth_error in Hin as (k & Hk). destruct (Hx k row Hk) as (_ & Q). unfold updated_row in Q.
  destruct (W (b * n + N.of_nat k)) as [d|] eqn:Ew.
  - injection Q as Q. destruct (HW _ _ Ew) as (P1 & P2). split.
    + refine (eq_trans (f_equal (@length _) (eq_sym Q)) _). etransitivity; [apply firstn_length|]. apply Nat.min_l. exact P1.
    + refine (eq_ind _ (row_ok (cfg i)) _ _ Q). apply row_ok_firstn. exact P2.
  - unfold stored_row in Q. destruct (dsk i _) as [y|] eqn:Ey; [|discriminate]. destruct (sound_rows i y ((b * n + N.of_nat k) / n) (dsk_sound i _ y Ey)) as (_ & F). rewrite Forall_forall in F. apply F. eapply nth_error_In; eauto.
Qed.

Lemma write_held l bs S i k b x y col : UP l bs S -> nth_error (columns (man S)) i = Some col -> nth_error (workers (cst S i)) k = Some (WPicked b x) ->
  enc (colenv i) (rpb (cst S i)) (nant (cst S i)) x y -> held (writeCompressedData (man S) b col y) /\ b < nb.
Proof.
  intros U Hc Hw Ey. assert (Hi : (i < ncol S)%nat) by (unfold System.ncol; apply nth_error_Some; congruence).
  destruct (up_uinv l bs S i U Hi) as (W & EW & Hu & Ui & Iv). destruct (picked_block _ _ _ _ _ _ _ _ _ _ _ Iv Ui (nth_error_In _ _ Hw)) as (W0 & (Ub & Lb) & HW).
  rewrite (u_rpb _ _ _ _ _ _ _ _ _ Ui), (u_nant _ _ _ _ _ _ _ _ _ Ui) in Ey. split; trivial.
  destruct (block_rows i W0 b x HW Ub) as (Lx & Ax & Rx). destruct (held_shape cfg T nt m0 K n na New Zn N32 Na32 Tot (man S) (up_held _ _ _ U)) as (P & De & Ft & Lc & _); trivial.
  destruct (De i col Hc) as (D1 & D2 & D3). pose proof (hd_rows _ _ _ _ _ _ _ _ (up_held _ _ _ U)) as Er. pose proof (hd_ants _ _ _ _ _ _ _ _ (up_held _ _ _ U)) as Ea.
  assert (Hi0 : (i < length (columns m0))%nat) by (rewrite <- Lc; exact Hi).
  apply (held_write cfg T nt m0 K n na New Zn N32 Na32 Tot (man S) i col b y); trivial.
  - apply (up_held _ _ _ U).
  - now rewrite (up_nb _ _ _ U).
  - rewrite (placed_size (man S) P ltac:(lia) i col Hc), Er, Ea, (size_agrees _ _ _ _ D1). unfold len. f_equal. exact (enc_length T nt (cfg i) (L i) n na x y (Co i) Ey).
  - eapply enc_fits. exact Ey.
  - exact (enc_sound T nt (cfg i) (L i) n na x y (Co i) D2 Ey Rx (Af i Hi0)).
Qed.

Lemma session_sreach l bs S : session l bs S -> sreach cfg T nt (sopen cfg T nt m) S.
Proof.
  induction 1; [constructor|eapply sreach_step; eauto..]; try (eapply ss_call; eauto; fail).
  - now apply ss_move.
  - now apply ss_wake.
Qed.

Let St0 : sstart cfg T nt (sopen cfg T nt m) := held_start cfg T nt m0 K n na New Zn N32 Na32 Tot m Hm.

Lemma held_fits m' : held m' -> fits32 m'.
Proof. intros H. now destruct (held_shape cfg T nt m0 K n na New Zn N32 Na32 Tot m' H) as (_ & _ & Q & _). Qed.

Lemma up_si l bs S : session l bs S -> running S -> held (man S) -> SI cfg T nt A (sopen cfg T nt m) S.
Proof. intros H R Hh. apply (si_reach cfg T nt A NT HA A32); trivial; [eapply session_sreach; eauto|now apply held_fits]. Qed.

Lemma up_step l bs S i s' : UP l bs S -> (i < ncol S)%nat -> step (cst S i) s' -> code (cst S i) <> [] \/ code s' = [] -> status s' = Running.
Proof.
  intros U Hi Ss Nc. destruct (up_uinv l bs S i U Hi) as (W & EW & Hu & _).
  assert (Hi' : (i < length (columns m))%nat) by (unfold System.ncol in Hi; now rewrite (up_cols _ _ _ U) in Hi).
  apply (update_running (dsk i) nb n na ok (put_ok i) ltac:(lia) (hd_small _ _ _ _ _ _ _ _ Hm) (disk_within cfg T nt m i) (dsk_readable i Hi') (put_length i) NT (col_af i Hi') W (bs i)).
  eapply ud_step; eauto.
Qed.

Lemma up_moved l bs S S' : UP l bs S -> ncol S' = ncol S -> running S' -> held (man S') -> nBlocksInFile (man S') = nb -> columns (man S') = columns m ->
  (forall j, (j < ncol S)%nat -> moved cfg T nt S S' j) -> UP l bs S'.
Proof.
  intros U Nc R Hh Hn Hcs Mv. constructor; trivial. rewrite Nc. intros j Hj. destruct (up_uinv l bs S j U Hj) as (W & EW & Hu & Ui & _). exists W. split; trivial.
  destruct (Mv j Hj) as [E|Ss Nd|n' m' c Ha Hc Cl Rz Cj Clj E].
  - rewrite E. exact Hu.
  - eapply ud_step; eauto.
  - exfalso. rewrite (u_rpb _ _ _ _ _ _ _ _ _ Ui) in Rz. lia.
Qed.

Lemma up_load l bs S i col b c old : UP l bs S -> nth_error (columns (man S)) i = Some col -> len old = co_blockSize col -> Forall (fun v => v < 2 ^ 8) old ->
  status (sys_load cfg T nt (man S) i col old (set_code (cst S i) c) b) = Running.
Proof.
  intros U Hc Lo Fo. assert (Hi : (i < ncol S)%nat) by (unfold System.ncol; apply nth_error_Some; congruence).
  destruct (up_uinv l bs S i U Hi) as (W & EW & Hu & Ui & _). destruct Ui as [R Er En Nk Mg _].
  destruct (held_shape cfg T nt m0 K n na New Zn N32 Na32 Tot (man S) (up_held _ _ _ U)) as (P & De & Ft & Lc & _); trivial.
  pose proof (hd_rows _ _ _ _ _ _ _ _ (up_held _ _ _ U)) as Em. pose proof (hd_ants _ _ _ _ _ _ _ _ (up_held _ _ _ U)) as Ea.
  destruct (De i col Hc) as (D1 & D2 & D3). assert (Hi0 : (i < length (columns m0))%nat) by (rewrite <- Lc; exact Hi).
  unfold sys_load. cbv zeta. set (s1 := if cached _ _ then _ else _).
  assert (Q : rpb s1 = n /\ nant s1 = na /\ status s1 = Running) by (unfold s1; destruct (cached _ b); cbn; auto).
  destruct Q as (Q1 & Q2 & Q3). clearbody s1. destruct (N.ltb_spec b (nBlocksInFile (man S))) as [Hb|Hb]; [|exact Q3].
  destruct (hd_data _ _ _ _ _ _ _ _ (up_held _ _ _ U) i col b Hc Hb) as (y & Ey & _). rewrite Ey.
  destruct (load_total (cfg i) (L i) (N.to_nat (rpb s1)) (nant s1) (block_ants T (rpb s1) b) y
      (repeat 0 (nSymbols (codec_of (cfg i)) (N.to_nat (rpb s1)))) (Co i)) as (rows & ->); [| | | |exact Q3].
  + eapply read8; [|exact Ey]. apply (hd_bytes _ _ _ _ _ _ _ _ (up_held _ _ _ U)).
  + destruct (read_ok (man S) P Ft ltac:(lia) b i col Hc Hb (hd_begun _ _ _ _ _ _ _ _ (up_held _ _ _ U))) as (r & Err & Lr). rewrite Ey in Err. injection Err as <-. specialize (Lr y eq_refl).
    rewrite (placed_size _ P ltac:(lia) i col Hc), Em, Ea, (size_agrees _ _ _ _ D1) in Lr. rewrite Q1, Q2. apply Nat2N.inj. exact Lr.
  + apply repeat_length.
  + intros Ha r0 _. rewrite Q2. now apply (Af i).
Qed.

Lemma up_code l bs S i k q c : UP l bs S -> (i < ncol S)%nat -> code (cst S i) = ISetRpb k q :: c -> False.
Proof.
  intros U Hi Hc. destruct (up_uinv l bs S i U Hi) as (W & EW & Hu & Ui & _).
  destruct (u_code _ _ _ _ _ _ _ _ _ Ui) as [H' C K' B|row' A' H' C K' B|W0 row' d A' Ew L' H' C K' B|W0 t T' H' Cu C K' U' B|W0 t T' H' C K' Ch Cu U' B|W0 t T' H' C K' Ch B|H' C K' Ch U' B|H' C K' Ch];
    rewrite Hc in H'; try discriminate; try (destruct H' as [H'|H']; discriminate); try (destruct H' as [H'|[H'|H']]; discriminate).
  injection H' as <- ->. destruct T' as (? & _ & [(T' & _)|(? & T' & _)]); discriminate.
Qed.

Lemma up_call l l' bs S S' i (a : call (colenv i)) b' : UP l bs S -> scall cfg T nt S S' i a -> (forall j r, j <> i -> last_put l' j r = last_put l j r) ->
  (forall W, (forall r, W r = last_put l i r) -> upds i W (bs i) (cst S i) -> exists W', (forall r, W' r = last_put l' i r) /\ upds i W' b' (set_code (cst S i) (call_code a))) ->
  UP l' (fun j => if (j =? i)%nat then b' else bs j) S'.
Proof.
  intros U (Hi & R & C0 & Ci & _ & _ & E & Em & Ea & Eo) Ho Hs. assert (Nc : ncol S' = ncol S) by (unfold System.ncol; now rewrite Em). constructor; try rewrite Em; try apply U.
  - unfold System.running. rewrite Nc. intros j Hj. destruct (Nat.eq_dec j i) as [->|Nj]; [rewrite E; now apply R|rewrite (Eo j Nj); now apply R].
  - rewrite Nc. intros j Hj. destruct (up_col _ _ _ U j Hj) as (W & EW & Hu). destruct (Nat.eqb_spec j i) as [Q|Nj].
    + subst j. rewrite E. now apply (Hs W).
    + exists W. split; [intros r; now rewrite Ho|]. rewrite (Eo j Nj). exact Hu.
Qed.

Theorem up_session l bs S : session l bs S -> UP l bs S.
Proof.
  induction 1 as [|l bs S S' i row d Hs IH Ok Bs Pd Sc|l bs S S' i row Hs IH Ok Bs Sc|l bs S S' i Hs IH Sc|l bs S S' Hs IH Mv|l bs S S' Hs IH Wk].
  - constructor; trivial; [now intros j _|]. intros j _. exists (fun _ => None). split; trivial.
    pose proof (ud_open (e := colenv j) (dsk j) nb n na ok (put_ok j)) as Q. cbn [System.cst sopen]. rewrite (hd_rows _ _ _ _ _ _ _ _ Hm), (hd_ants _ _ _ _ _ _ _ _ Hm), Nat2N.id. exact Q.
  - rewrite (hd_rows _ _ _ _ _ _ _ _ Hm) in *. pose proof Sc as (Hi & R & C0 & Ci & Uc & _).
    apply (up_call l _ bs S S' i (Put row d)); trivial; [intros; now apply last_put_other|]. intros W EW Hu. exists (upd_map W row d). split; [|eapply ud_put; eauto].
    intros r. rewrite last_put_here. unfold upd_map. rewrite N.eqb_sym. destruct (row =? r); trivial.
  - rewrite (hd_rows _ _ _ _ _ _ _ _ Hm) in *. pose proof Sc as (Hi & R & C0 & Ci & Uc & _).
    apply (up_call l _ bs S S' i (Get row)); trivial. intros W EW Hu. exists W. split; trivial. eapply ud_get; eauto.
  - pose proof Sc as (Hi & R & C0 & Ci & Uc & _). assert (X : UP l (fun j => if (j =? i)%nat then bs i else bs j) S').
    { apply (up_call l _ bs S S' i Shutdown); trivial. intros W EW Hu. exists W. split; trivial. apply ud_close; auto. }
    destruct X as [X1 X2 X3 X4 X5]. constructor; trivial. intros j Hj. destruct (X5 j Hj) as (W & EW & Hu). exists W. split; trivial. destruct (Nat.eqb_spec j i) as [Q|_]; [now subst j|trivial].
  - pose proof (move_columns cfg T nt S S' Mv) as Nc.
    assert (X : running S' /\ held (man S') /\ nBlocksInFile (man S') = nb /\ columns (man S') = columns m).
    { destruct Mv as [i x c Hi R Hc Mw P Oi E Em On|i b c col old Hn R Hc Mw Oi Lo Fo E Em On|i n' m' c Hi R Hc Mw Ha Oi Ei E Ea Eo|
        i n' m' c Hi R Hc Mw Ha Oi Ei E Em On|i n' m' c Hi R Hc Mw Ha E Em On|i k w y s' w' col Hn R Hw Ey E Es Em Ea Eo].
      - rewrite Em. split; [|split; [apply IH|split; apply IH]]. unfold System.running. rewrite Nc. intros j Hj. destruct (Nat.eq_dec j i) as [->|Nj]; [|rewrite (proj2 On j Nj); now apply IH].
        apply (up_step l bs S i); trivial; [|left; congruence]. apply step_int. apply step_main with (junk := None) (i := x) (c := c); trivial; [now apply R|exact Logic.I].
      - rewrite Em. split; [|split; [apply IH|split; apply IH]]. unfold System.running. rewrite Nc. intros j Hj. destruct (Nat.eq_dec j i) as [->|Nj]; [|rewrite (proj2 On j Nj); now apply IH].
        rewrite E. now apply (up_load l bs).
      - exfalso. eapply up_code; eauto.
      - exfalso. eapply up_code; eauto.
      - exfalso. eapply up_code; eauto.
      - assert (Hi : (i < ncol S)%nat) by (apply nth_error_Some; congruence). split.
        + unfold System.running. rewrite Nc. intros j Hj. destruct (Nat.eq_dec j i) as [->|Nj]; [|rewrite (Eo j Nj); now apply IH].
          rewrite Es. apply (up_step l bs S i); trivial.
          * apply step_int. apply step_worker with (w := w) (y := y); trivial. now apply R.
          * apply code_dec. now apply (wexec_closing _ _ _ _ _ k E).
        + rewrite Em. destruct w as [| | |b x|b|]; try (split; [apply IH|split; apply IH]). destruct (encodable _ _ _ _) eqn:En; [|split; [apply IH|split; apply IH]].
          destruct (write_held l bs S i k b x y col IH Hn Hw (Ey b x eq_refl En)) as (Q1 & Q2). destruct (write_settings (man S) b col y) as (_ & _ & _ & _ & -> & ->).
          split; trivial. rewrite (up_nb _ _ _ IH). split; [lia|apply IH]. }
    destruct X as (R' & Hh & Hn & Hcs). apply (up_moved l bs S); trivial.
    apply (moves cfg T nt A NT HA A32 (sopen cfg T nt m) S S'); trivial.
    + apply (up_si l bs S); trivial; apply IH.
    + apply (up_si l bs S'); trivial. eapply su_move; eauto.
  - assert (Em : man S' = man S) by (destruct Wk; trivial). pose proof (wakes cfg T nt S S' Wk) as Mv. assert (Nc : ncol S' = ncol S) by (unfold System.ncol; now rewrite Em).
    apply (up_moved l bs S); trivial; try rewrite Em; try apply IH. unfold System.running. rewrite Nc. intros j Hj. destruct (Mv j Hj) as [E|Ss Nd|n' m' c Ha Hc Cl Rz Cj Clj E].
    + rewrite E. now apply IH.
    + now apply (up_step l bs S j).
    + rewrite E. now apply IH.
Qed.
(** ** Results *)
Lemma now_ext i W l r : (forall r, W r = last_put l i r) -> updated_row (e := colenv i) (dsk i) n na W r = row_now cfg T nt m l i r.
Proof. intros EW. unfold updated_row, row_now, held_row. rewrite EW, (hd_rows _ _ _ _ _ _ _ _ Hm), (hd_ants _ _ _ _ _ _ _ _ Hm), Nat2N.id. reflexivity. Qed.

Lemma step_out {e} (s s' : state e) x : step s s' -> outs s' = x :: outs s -> istep s s'.
Proof.
  intros St Ho. assert (Nn : forall l : list (N * answer (data e)), l <> x :: l) by (intros l Q; apply (f_equal (@length _)) in Q; cbn in Q; lia).
  inversion St as [? Si|a R0 C0 C1 A'|j Hj|Hj|j H1 H2 H3]; subst; trivial; exfalso; now apply (Nn (outs s)).
Qed.

Lemma quiet_outs {e} (s s' : state e) : istep s s' -> code s = [] -> outs s' = outs s.
Proof.
  intros Si C0. inversion Si as [junk x c ? _ Hc Mw E J|j w y s1 w1 _ Hw Hy E]; subst; [congruence|].
  destruct w as [| | |b' x|b'|]; cbn [wexec] in E; unfold pick in E;
    repeat match type of E with
    | (if ?b then _ else _) = Some _ => destruct b
    | match match ?b with _ => _ end with _ => _ end = Some _ => destruct b
    | match ?b with _ => _ end = Some _ => destruct b
    end; try discriminate; injection E as <- <-; reflexivity.
Qed.

(** a call of get returns the row as it is now *)
Theorem session_get l bs S i r S1 S2 : session l bs S -> ok r -> bs i <= r / n -> scall cfg T nt S S1 i (Get r) -> srun S1 S2 -> idle S2 ->
  exists v, outs (cst S2 i) = (r, AVals v) :: outs (cst S i) /\ row_now cfg T nt m l i r = Some v.
Proof.
  intros Hs Ok Bs Sc Run Id. assert (Hi : (i < ncol S)%nat) by apply Sc.
  set (bs1 := fun j => if (j =? i)%nat then r / n else bs j).
  assert (H1 : session l bs1 S1).
  { unfold bs1. pose proof (su_get cfg T nt ok m l bs S S1 i r Hs Ok) as Q. rewrite (hd_rows _ _ _ _ _ _ _ _ Hm) in Q. auto. }
  assert (X : session l bs1 S2 /\ (i < ncol S2)%nat /\ answering r (outs (cst S i)) (cst S2 i) /\
    forall a, outs (cst S2 i) = (r, a) :: outs (cst S i) -> exists v, a = AVals v /\ row_now cfg T nt m l i r = Some v).
  { assert (Nn : forall x (o : list (N * answer (data (colenv i)))), o <> x :: o) by (intros x o Q; apply (f_equal (@length _)) in Q; cbn in Q; lia).
    assert (St : forall S3 S4, session l bs1 S3 -> session l bs1 S4 -> (i < ncol S3)%nat -> ncol S4 = ncol S3 -> answering r (outs (cst S i)) (cst S3 i) ->
      (forall a, outs (cst S3 i) = (r, a) :: outs (cst S i) -> exists v, a = AVals v /\ row_now cfg T nt m l i r = Some v) -> moved cfg T nt S3 S4 i ->
      answering r (outs (cst S i)) (cst S4 i) /\ forall a, outs (cst S4 i) = (r, a) :: outs (cst S i) -> exists v, a = AVals v /\ row_now cfg T nt m l i r = Some v).
    { intros S3 S4 E3 E4 H3 Nc A3 Q3 Mv. pose proof (up_session _ _ _ E3) as U3. pose proof (up_session _ _ _ E4) as U4.
      destruct (up_uinv l bs1 S3 i U3 H3) as (W & EW & Hu & Ui & _). assert (Hi' : (i < length (columns m))%nat) by (unfold System.ncol in H3; now rewrite (up_cols _ _ _ U3) in H3).
      destruct Mv as [E|Ss Nd|n' m' c Ha Hc Cl' Rz Cj Clj E].
      - now rewrite E.
      - assert (R4 : status (cst S4 i) = Running) by (apply U4; lia). split; [eapply answering_step; eauto|].
        intros a Ho. destruct A3 as [(Ho3 & l3 & x3 & Hc3 & _)|(C3 & a3 & Ho3)].
        + rewrite <- Ho3 in Ho. destruct (update_answers (dsk i) nb n na ok (put_ok i) ltac:(lia) (hd_small _ _ _ _ _ _ _ _ Hm) (disk_within cfg T nt m i) (dsk_readable i Hi') (put_length i) NT (col_af i Hi')
            W _ (cst S3 i) (cst S4 i) r a Hu (step_out _ _ _ Ss Ho) Ho) as (v & -> & Ev). exists v. split; trivial. now rewrite <- (now_ext i W l r EW).
        + (* nothing is left to do *)
          inversion Ss as [? Si Eq|a' R0 C0 C1 A' Eq|j Hj Eq|Hj Eq|j G1 G2 G3 Eq].
          * destruct (answering_step r (outs (cst S i)) (cst S3 i) (cst S4 i)) as [(Ho4 & _)|(C4 & a4 & Ho4)]; eauto; [right; eauto|exfalso; rewrite Ho4 in Ho; now apply (Nn (r, a) (outs (cst S i)))|].
            assert (Eo : outs (cst S4 i) = outs (cst S3 i)).
            { apply quiet_outs; trivial. }
            apply Q3. congruence.
          * apply Q3. rewrite <- Ho, <- Eq. reflexivity.
          * apply Q3. rewrite <- Ho, <- Eq. reflexivity.
          * apply Q3. rewrite <- Ho, <- Eq. reflexivity.
          * apply Q3. rewrite <- Ho, <- Eq. reflexivity.
      - exfalso. rewrite (u_rpb _ _ _ _ _ _ _ _ _ Ui) in Rz. lia. }
    clear Id. induction Run as [|S3 S4 Run IH Mv|S3 S4 Run IH Wk].
    - split; trivial. destruct Sc as (_ & _ & _ & _ & _ & _ & E & Em & _). split; [unfold System.ncol; rewrite Em; exact Hi|]. rewrite E. split.
      + left. split; [reflexivity|]. exists [], (IGet r). repeat split; [constructor|now left].
      + intros a Q. exfalso. now apply (Nn (r, a) (outs (cst S i))).
    - destruct IH as (E3 & H3 & A3 & Q3). assert (E4 : session l bs1 S4) by (eapply su_move; eauto). pose proof (move_columns cfg T nt S3 S4 Mv) as Nc. split; trivial. split; [lia|].
      pose proof (up_session _ _ _ E3) as U3. pose proof (up_session _ _ _ E4) as U4. apply (St S3); trivial.
      apply (moves cfg T nt A NT HA A32 (sopen cfg T nt m) S3 S4); trivial; [apply (up_si l bs1 S3)|apply (up_si l bs1 S4)|]; trivial; try apply U3; apply U4.
    - destruct IH as (E3 & H3 & A3 & Q3). assert (E4 : session l bs1 S4) by (eapply su_wake; eauto).
      assert (Nc : ncol S4 = ncol S3) by (destruct Wk as [? ? ? ? ? Em _|? ? ? ? Em _]; unfold System.ncol; now rewrite Em). split; trivial. split; [lia|].
      apply (St S3); trivial. now apply (wakes cfg T nt S3 S4 Wk). }
  destruct X as (_ & H2 & [(_ & l2 & x & Hc & _)|(_ & a & Ha)] & Q); [rewrite (Id i H2) in Hc; destruct l2; discriminate|].
  destruct (Q a Ha) as (v & -> & Ev). exists v. now split.
Qed.

(** the calls come to an end *)
Theorem session_finishes l bs S : session l bs S -> sfinishes S.
Proof.
  intros H. assert (P : session l bs S) by exact H. revert S P H. intros S _.
  apply (sys_finishes cfg T nt A NT (sopen cfg T nt m) (session l bs)); trivial.
  - intros S1 H1. pose proof (up_session _ _ _ H1) as U. apply (up_si l bs S1); trivial; apply U.
  - intros S1 H1. apply (up_session _ _ _ H1).
  - intros S1 S2 H1 Mv. eapply su_move; eauto.
  - intros S1 i H1 Hi b x Hw Ex. pose proof (up_session _ _ _ H1) as U. destruct (up_uinv l bs S1 i U Hi) as (W & EW & Hu & Ui & Iv).
    destruct (picked_block _ _ _ _ _ _ _ _ _ _ _ Iv Ui Hw) as (W0 & (Ub & Lb) & HW). destruct (block_rows i W0 b x HW Ub) as (Lx & Ax & Rx).
    assert (Hd : described cfg m) by now destruct (held_shape cfg T nt m0 K n na New Zn N32 Na32 Tot m Hm) as (_ & Q & _).
    assert (Hc : exists col, nth_error (columns m) i = Some col).
    { unfold System.ncol in Hi. rewrite (up_cols _ _ _ U) in Hi. destruct (nth_error (columns m) i) eqn:E; [eauto|]. apply nth_error_None in E. lia. }
    destruct Hc as (col & Hc). destruct (Hd i col Hc) as (_ & D2 & D3).
    apply (col_encodes (cfg i) (L i) T nt); trivial.
    + intros Q. rewrite Q in Lx. cbn in Lx. lia.
    + clear - Rx. revert x Rx. unfold System.colenv. destruct (cfg i) as [| | |p ch bi]; trivial. intros x Rx. apply Forall_forall. intros v Hv. apply in_map_iff in Hv as (rw & <- & Hin). now destruct (Rx rw Hin).
  - intros S1 i k q c H1 Hi _ Hc. exact (False_ind _ (up_code l bs S1 i k q c (up_session _ _ _ H1) Hi Hc)).
Qed.

Lemma last_put_ok l bs S : session l bs S -> forall i r d, last_put l i r = Some d -> put_ok i d.
Proof.
  induction 1 as [|l bs S S' i row d Hs IH Ok Bs Pd Sc| | | |]; trivial; [discriminate|]. intros j r d' Q. destruct (Nat.eq_dec j i) as [->|Nj].
  - rewrite last_put_here in Q. destruct (row =? r); [congruence|eauto].
  - rewrite last_put_other in Q by trivial. eauto.
Qed.

(** what the file holds in the end *)
Theorem session_closed l bs S : session l bs S -> all_closed S -> held (man S) /\ columns (man S) = columns m /\ nBlocksInFile (man S) = nb /\
  forall i, (i < length (columns m))%nat ->
    (forall b, (forall r, r / n = b -> last_put l i r = None) -> held_block cfg T nt (man S) i b = held_block cfg T nt m i b) /\
    (forall b r0, r0 / n = b -> last_put l i r0 <> None -> exists x y, held_block cfg T nt (man S) i b = Some y /\ enc (colenv i) n na x y /\ length x = N.to_nat n /\
      forall k row, nth_error x k = Some row -> (antenna1 row, antenna2 row) = t_ants T (b * n + N.of_nat k) /\ row_now cfg T nt m l i (b * n + N.of_nat k) = Some (visibilities row) /\
        exists out, held_row cfg T nt (man S) i (b * n + N.of_nat k) = Some out /\
          kept (cfg i) (L i) na x (floats (nMetaFloats (codec_of (cfg i)) (N.to_nat n) na) y) row out).
Proof.
  intros Hs Cl. pose proof (up_session _ _ _ Hs) as U. split; [apply U|]. split; [apply U|]. split; [apply U|]. intros i Hi'.
  pose proof (up_si l bs S Hs (up_run _ _ _ U) (up_held _ _ _ U)) as Is.
  assert (Hi : (i < ncol S)%nat) by (unfold System.ncol; now rewrite (up_cols _ _ _ U)).
  destruct (nth_error (columns m) i) as [col|] eqn:Hc; [|apply nth_error_None in Hc; lia].
  assert (Hc' : nth_error (columns (man S)) i = Some col) by now rewrite (up_cols _ _ _ U).
  destruct (up_uinv l bs S i U Hi) as (W & EW & Hu & Ui & _). destruct (Cl i Hi) as (C1 & C2).
  destruct (update_closed (dsk i) nb n na ok (put_ok i) ltac:(lia) (hd_small _ _ _ _ _ _ _ _ Hm) (disk_within cfg T nt m i) (dsk_readable i Hi') (put_length i) NT (col_af i Hi')
            W _ (cst S i) Hu C1 C2) as (F1 & F2).
  assert (Fd : forall b y, file (cst S i) b = Some y -> held_block cfg T nt (man S) i b = Some y).
  { intros b y Hf. destruct (s_file _ _ _ _ _ _ Is i col b y Hc' Hf) as (L1 & L2 & L3). unfold held_block. rewrite Hc'. unfold disk. now rewrite (proj2 (N.ltb_lt _ _) L1), L3. }
  split.
  - intros b Hb. assert (Ef : file (cst S i) b = dsk i b) by (apply F1; intros r Hr; rewrite EW; auto).
    change (held_block cfg T nt m i b) with (dsk i b). destruct (dsk i b) as [y|] eqn:Ed; [now apply Fd|].
    destruct (N.lt_ge_cases b nb) as [Lb|Lb].
    + exfalso. destruct (held_disk cfg T nt m0 K n na m i col b Hm Hc Lb) as (y & D1 & _). unfold disk_of in Ed. rewrite Hc in Ed. congruence.
    + unfold held_block. rewrite Hc'. unfold disk. rewrite (up_nb _ _ _ U). now rewrite (proj2 (N.ltb_ge _ _) Lb).
  - intros b r0 Hr0 Hp. subst b. destruct (F2 r0) as (x & y & Fy & Ey & Ub); [now rewrite EW|]. exists x, y. split; [now apply Fd|]. split; trivial.
    assert (HW : forall r d, W r = Some d -> put_ok i d) by (intros r d; rewrite EW; apply (last_put_ok l bs S); trivial).
    destruct (block_rows i W (r0 / n) x HW Ub) as (Lx & Ax & Rx). split; trivial. destruct Ub as (_ & Ub).
    destruct (held_shape cfg T nt m0 K n na New Zn N32 Na32 Tot m Hm) as (_ & De & _ & Lc & _). destruct (De i col Hc) as (D1 & D2 & D3). rewrite Lc in Hi'.
    intros k row Hk. destruct (Ub k row Hk) as (U1 & U2). split; [exact U1|]. split; [rewrite <- (now_ext i W l _ EW); exact U2|].
    destruct (block_kept T nt (cfg i) (L i) n na (r0 / n) x y (Co i) D2 D3 ltac:(lia) ltac:(lia) Lx Ax Rx (Af i Hi') Ey k row Hk) as (out & Ho & Hkp).
    exists out. split; [|exact Hkp]. unfold held_row, stored_row. rewrite (hd_rows _ _ _ _ _ _ _ _ (up_held _ _ _ U)), (hd_ants _ _ _ _ _ _ _ _ (up_held _ _ _ U)), Nat2N.id.
    assert (Hkn : N.of_nat k < n) by (assert (k < length x)%nat by (apply nth_error_Some; congruence); lia).
    assert (E1 : (r0 / n * n + N.of_nat k) / n = r0 / n) by (symmetry; apply (N.div_unique _ _ _ (N.of_nat k)); lia).
    assert (E2 : (r0 / n * n + N.of_nat k) mod n = N.of_nat k) by (symmetry; apply (N.mod_unique _ _ (r0 / n)); lia).
    rewrite E1, E2, Nat2N.id, (Fd _ _ Fy). exact Ho.
Qed.
End update.
