(** Writing a new table in row order never fails. *)
From Verif Require Import Base BaseLemmas Floats TimeBlockBuffer TbbSpec BitStream BytePacker BytePackerProofs BytePackerTop File FileProofs StMan StManSpec StManProofs.
From Verif Require Import StochasticEncoder TimeBlockEncoders TbeSpec Weights WeightSpec Block BlockSpec BlockProofs Column ColumnSpec ColumnProofs ColumnInv ColumnReach ColumnTerm ColumnData ColumnOrder ColumnWhole ColumnAmong
  StoredColumn StoredProofs System SystemSpec SystemLow SystemCols SystemInv SystemOrder SystemEnd SystemTotal.
From Coq Require Import ZifyNat ZifyN.
Local Open Scope N_scope.
Local Arguments System.colenv : simpl never.

(** ** The file holds bytes *)
Definition bytes8 (f : File.file) : Prop := forall o, fbyte f o < 2 ^ 8.

Lemma write8 f off bs : bytes8 f -> fits 8 bs -> bytes8 (fwrite f off bs).
Proof.
  intros H F. unfold fwrite. destruct bs as [|v bs]; trivial. intros o. cbn [fbyte]. destruct (_ && _)%bool.
  - unfold fits in F. rewrite Forall_forall in F. destruct (nth_in_or_default (N.to_nat (o - off)) (v :: bs) 0) as [I| ->]; [now apply F|reflexivity].
  - destruct (_ <? _); [apply H|reflexivity].
Qed.

Lemma le_fits n : forall v, fits 8 (le n v).
Proof. induction n; intros v; constructor; [now apply N.mod_lt|apply IHn]. Qed.

Lemma header_fits8 m : Forall (fun v => v < 2 ^ 8) (name m) -> fits 8 (header_bytes m).
Proof.
  intros H. unfold header_bytes, SerializeHeader. repeat (apply fits_app; split); try apply le_fits; trivial.
  induction (columns m) as [|c cs IH]; [constructor|]. cbn [map concat]. apply fits_app. split; trivial.
  unfold SerializeColumn. repeat (apply fits_app; split); apply le_fits.
Qed.

Lemma read8 m b c n y : bytes8 (fil m) -> readCompressedData m b c n = Ok (Some y) -> fits 8 y.
Proof.
  intros H. unfold readCompressedData. destruct (_ <=? _); [|destruct (_ =? _); discriminate]. intros [= <-]. apply Forall_forall. intros v Hv.
  unfold File.bytes in Hv. apply in_map_iff in Hv as (k & <- & _). apply H.
Qed.

Lemma wexec_no_throw {e} y (s s' : state e) w w' k : wexec y s w = Some (s', w') -> status s = Running -> status (set_worker s' k w') <> Thrown.
Proof.
  intros E R. destruct w as [| | |b x|b|]; cbn [wexec] in E; unfold pick in E;
  repeat match type of E with
  | (if ?b then _ else _) = Some _ => destruct b eqn:?
  | match match ?b with _ => _ end with _ => _ end = Some _ => destruct b
  | match ?b with _ => _ end = Some _ => destruct b
  end; try discriminate; injection E as <- <-; unfold notify; cbn; congruence.
Qed.

Section SystemWrite.
Context (cfg : nat -> coldef) (T : table) (nt A : nat).
Hypotheses (NT : nt <> 0%nat) (HA : forall r, (fst (t_ants T r) < A)%nat /\ (snd (t_ants T r) < A)%nat) (A32 : N.of_nat A < 2 ^ 32).
Notation sys := (sys cfg T nt).
Notation cst := (cst cfg T nt). Notation man := (man cfg T nt). Notation active := (active cfg T nt).
Notation ncol := (ncol cfg T nt). Notation running := (running cfg T nt). Notation colenv := (colenv cfg T nt).
Context (m0 : stman) (D : forall i, N -> list (data (colenv i))) (K : N) (L : nat -> f32).
Hypotheses (HD : forall i r, (nSamp (colenv i) <= length (D i r))%nat) (New : new_table cfg m0).
Hypotheses (Co : forall i, coldef_ok (cfg i) (L i)).
Context (n : N) (na : nat).
Hypotheses (Ln : n < K) (Fn : first_block (colenv 0) n) (An : antenna_count (colenv 0) n na) (Nm : Forall (fun v => v < 2 ^ 8) (name m0)).
Hypotheses (Af : forall i, (i < length (columns m0))%nat -> af_of (cfg i) = true -> forall r, (fst (t_ants T r) < na)%nat /\ (snd (t_ants T r) < na)%nat).
Hypotheses (Tot : total n (N.of_nat na) (columns m0) < 2 ^ 32).
Notation SO := (SO cfg T nt A m0 D K).

Definition well (S : sys) : Prop := running S /\ fits32 (man S) /\ bytes8 (fil (man S)).

Lemma well_same S S' : well S -> man S' = man S -> (forall j, (j < ncol S)%nat -> status (cst S' j) = status (cst S j)) -> well S'.
Proof. intros (R & F & B) Em Es. unfold well. rewrite Em. repeat split; trivial. intros j. unfold System.ncol. rewrite Em. intros Hj. rewrite (Es j Hj). now apply R. Qed.

Lemma so_ncol ks S : SO ks S -> ncol S = length (columns m0).
Proof. intros I. unfold System.ncol. apply (shape_length _ _ (s_shape _ _ _ _ _ _ (o_si _ _ _ _ _ _ _ _ _ I))). Qed.

Lemma step_well ks S i s' : SO ks S -> running S -> (i < ncol S)%nat -> step (cst S i) s' -> code (cst S i) <> [] \/ code s' = [] ->
  status s' = Running \/ (status s' = Thrown /\ exists b c, code (cst S i) = ILoad b :: c).
Proof.
  intros I R Hi St Cd. pose proof (o_order _ _ _ _ _ _ _ _ _ I i Hi) as Io. destruct (status s') eqn:E; [now left|right; split; trivial|exfalso].
  - destruct (order_throws True (D i) (HD i) (ks i) n (cst S i) s' NT Io (R i Hi) St E) as (b & c & Hc & _); eauto.
    intros Cl. left. destruct (o_end _ _ _ _ _ _ _ _ _ I (ex_intro _ i (conj Hi (or_intror Cl))) i Hi) as (-> & _). exact Ln.
  - refine (order_no_ub True (D i) (HD i) (ks i) na n s' NT (io_step _ _ _ _ _ Io St Cd) Fn An _ E).
    intros r Ha. apply (Af i); trivial. now rewrite <- (so_ncol ks S I).
Qed.

Lemma move_well ks S S' : SO ks S -> well S -> smove cfg T nt S S' -> well S'.
Proof.
  intros I W H. pose proof W as (R & Ft & B8). pose proof (o_si _ _ _ _ _ _ _ _ _ I) as Is. pose proof (move_columns _ _ _ _ _ H) as Nc.
  assert (Ag : forall i, (i < ncol S)%nat -> rpb (cst S i) <> 0 -> agree cfg T nt S i).
  { intros i Hi Rz. destruct (s_sync _ _ _ _ _ _ Is i Hi) as (S1 & S2). destruct (Nat.eq_dec i (active S)) as [H'|H']; [auto|]. destruct (S2 H') as [(G & _)|(m & _ & _ & G)]; [trivial|easy]. }
  assert (Na : rowsPerBlock (man S) <> 0 -> antennaCount (man S) = N.of_nat na).
  { intros Z. destruct (o_hist _ _ _ _ _ _ _ _ _ I) as [(Z' & _)|(n' & na' & m1 & ws & H1 & H2 & H3 & H4 & H5 & _)]; [easy|].
    destruct (hist_init cfg T nt A NT HA A32 m0 D HD (New' cfg m0 New) S n' na' m1 ws H1 H2 H3 H4 H5) as (_ & -> & _). destruct (H1 0%nat) as (F1 & F2).
    assert (n' = n) by exact (first_block_unique _ _ _ F1 Fn). subst n'. now rewrite (antenna_count_unique _ _ _ _ F2 An). }
  destruct H as [i x c Hi _ Hc Mw P Oi E Em On|i b c col old Hn _ Hc Mw Oi Lo Fo E Em On|i k m c Hi _ Hc Mw Ha Oi Ei E Ea Eo|
    i k m c Hi _ Hc Mw Ha Oi Ei E Em On|i k m c Hi _ Hc Mw Ha E Em On|i k w y s' w' col Hn _ Hw Ey E Es Em Ea Eo].
  - apply (well_same S); trivial. intros j Hj. destruct (Nat.eq_dec j i) as [->|Nj]; [|now rewrite (proj2 On)]. rewrite (R i Hi).
    destruct (step_well ks S i (cst S' i) I R Hi) as [|(_ & b & c' & Hc')]; trivial.
    + apply step_int. apply step_main with (junk := None) (i := x) (c := c); trivial; [now apply R|exact Logic.I].
    + left. congruence.
    + rewrite Hc in Hc'. injection Hc' as -> _. discriminate.
  - assert (Hi : (i < ncol S)%nat) by (unfold System.ncol; apply nth_error_Some; now rewrite Hn).
    apply (well_same S); trivial. intros j Hj. destruct (Nat.eq_dec j i) as [->|Nj]; [|now rewrite (proj2 On)]. rewrite (R i Hi), E.
    destruct (ord_no_load _ _ _ _ _ _ (so_ord cfg T nt A NT m0 D K HD _ _ _ I R Hi) Hc) as (Cl & Rz). destruct (Ag i Hi Rz) as (Ag1 & Ag2). specialize (Ag2 Rz).
    assert (Rm : rowsPerBlock (man S) <> 0) by congruence. rewrite (Na Rm) in Ag2. apply Nat2N.inj in Ag2.
    unfold sys_load. cbv zeta. set (s1 := if cached _ _ then _ else _).
    assert (Q : rpb s1 = rowsPerBlock (man S) /\ nant s1 = na /\ status s1 = Running) by (unfold s1; destruct (cached _ b); cbn; repeat split; trivial; now apply R).
    destruct Q as (Q1 & Q2 & Q3). clearbody s1. destruct (N.ltb_spec b (nBlocksInFile (man S))) as [Hb|Hb]; [|exact Q3].
    destruct (read_ok (man S) (s_placed _ _ _ _ _ _ Is) Ft Rm b i col Hn Hb (s_begun _ _ _ _ _ _ Is)) as (r & Er & Lr). rewrite Er.
    destruct (load_total (cfg i) (L i) (N.to_nat (rpb s1)) (nant s1) (block_ants T (rpb s1) b) (match r with Some y => y | None => old end)
      (repeat 0 (nSymbols (codec_of (cfg i)) (N.to_nat (rpb s1)))) (Co i)) as (rows & ->); [| | | |exact Q3].
    + destruct r as [y|]; [eapply read8; eauto|exact Fo].
    + destruct (si_described cfg T nt A _ S i col Is (nw_described _ _ New) Hn) as (Ds & _).
      assert (Ll : len (match r with Some y => y | None => old end) = co_blockSize col) by (destruct r as [y|]; auto).
      rewrite (placed_size _ (s_placed _ _ _ _ _ _ Is) Rm i col Hn), (Na Rm), (size_agrees _ _ _ _ Ds) in Ll. rewrite Q1, Q2. apply Nat2N.inj. exact Ll.
    + apply repeat_length.
    + intros Ha r0 _. rewrite Q2. apply (Af i); trivial. now rewrite <- (so_ncol ks S I).
  - pose proof (so_inv cfg T nt A NT m0 D K (New' cfg m0 New) ks S i I R Hi) as Iv.
    assert (Rz : rpb (cst S i) = 0).
    { pose proof (i_phase _ _ Iv) as P. rewrite Hc in P. inversion P; try (match goal with H : maybe_store ?st ++ _ = _ |- _ => destruct st; discriminate end). assumption. }
    assert (Z : rowsPerBlock (man S) = 0) by (destruct (s_sync _ _ _ _ _ _ Is i Hi) as (Sy & _); destruct (Sy Ha) as (H & _); now rewrite <- H).
    assert (M0 : man S = m0).
    { destruct (o_hist _ _ _ _ _ _ _ _ _ I) as [(_ & H)|(n' & na' & m1 & ws & H1 & H2 & H3 & H4 & H5 & _)]; trivial.
      destruct (hist_init cfg T nt A NT HA A32 m0 D HD (New' cfg m0 New) S n' na' m1 ws H1 H2 H3 H4 H5) as (Q & _ & Q'). congruence. }
    destruct (ord_init True (D i) (ks i) _ k m c (so_ord cfg T nt A NT m0 D K HD _ _ _ I R Hi) Hc) as (Fb & An').
    assert (k = n) by exact (first_block_unique _ _ _ Fb Fn). subst k. assert (m = na) by exact (antenna_count_unique _ _ _ _ An' An). subst m.
    destruct (l_set _ _ (s_low _ _ _ _ _ _ Is i Hi) n na) as (L1 & L2); [rewrite Hc; now left|]. assert (L2' : N.of_nat na < 2 ^ 32) by lia.
    destruct (init_manager _ _ _ _ L1 L2' Ei) as (M1 & M2 & M3 & M4 & M5). rewrite M0 in *.
    split; [|split].
    + intros j Hj. destruct (Nat.eq_dec j i) as [->|Nj].
      * destruct (exec_set _ _ _ _ _ _ E) as (_ & _ & _ & _ & _ & _ & ->). now apply R.
      * rewrite (Eo j Nj). cbn. apply R. lia.
    + intros _. rewrite M1, M2, (total_shape n (N.of_nat na) (columns m0)); trivial.
    + revert Ei. unfold initializeRowsPerBlock. destruct (_ && _)%bool; [discriminate|]. destruct (place _ _ _ _) as (cs & t). intros [= <-]. cbn [fil writeHeader StMan.set_file set_hdrSize set_geometry].
      apply write8; trivial. apply header_fits8. exact Nm.
  - exfalso. destruct (init_no_throw (man S) k (N.of_nat m)) as (m' & Em').
    + destruct (s_sync _ _ _ _ _ _ Is i Hi) as (S1 & _). destruct (S1 Ha) as (S2 & _). rewrite <- S2.
      pose proof (so_inv cfg T nt A NT m0 D K (New' cfg m0 New) ks S i I R Hi) as Iv. pose proof (i_phase _ _ Iv) as P. rewrite Hc in P.
      inversion P; try (match goal with H : maybe_store ?st ++ _ = _ |- _ => destruct st; discriminate end). trivial.
    + congruence.
  - apply (well_same S); trivial. intros j Hj. destruct (Nat.eq_dec j i) as [->|Nj]; [|now rewrite (proj2 On)]. apply (exec_set _ _ _ _ _ _ E).
  - assert (Hi : (i < ncol S)%nat) by (unfold System.ncol; apply nth_error_Some; now rewrite Hn).
    split; [|split].
    + intros j Hj. rewrite Nc in Hj. destruct (Nat.eq_dec j i) as [->|Nj]; [|rewrite (Eo j Nj); now apply R].
      destruct (step_well ks S i (cst S' i) I R Hi) as [|(Th & _)]; trivial.
      * rewrite Es. apply step_int. apply step_worker with (w := w) (y := y); trivial. now apply R.
      * apply code_dec. rewrite Es. now apply (wexec_closing _ _ _ _ _ k E).
      * exfalso. rewrite Es in Th. exact (wexec_no_throw _ _ _ _ _ k E (R i Hi) Th).
    + rewrite Em. destruct w; trivial. destruct (encodable _ _ _ _); trivial. unfold fits32. destruct (write_settings (man S) b col y) as (-> & -> & _ & _ & -> & _). exact Ft.
    + rewrite Em. destruct w as [| | |b x|b|]; trivial. destruct (encodable _ _ _ _) eqn:En; trivial. rewrite writeCompressed_fil. apply write8; trivial.
      specialize (Ey b x eq_refl En). eapply enc_fits. exact Ey.
Qed.

Theorem order_well ks S : sys_order cfg T nt m0 D K ks S -> well S.
Proof.
  induction 1 as [|ks S S' i H W Lk Sc|ks S S' i H W Lk Sc|ks S S' H W Mv|ks S S' H W Wk].
  - split; [|split].
    + intros j _. reflexivity.
    + intros Z. cbn in Z. now rewrite (nw_rows _ _ New) in Z.
    + exact (nw_bytes _ _ New).
  - destruct Sc as (Hi & _ & _ & _ & _ & _ & E & Em & _ & Eo). apply (well_same S); trivial. intros j _. destruct (Nat.eq_dec j i) as [->|Nj]; [now rewrite E|now rewrite (Eo j Nj)].
  - destruct Sc as (Hi & _ & _ & _ & _ & _ & E & Em & _ & Eo). apply (well_same S); trivial. intros j _. destruct (Nat.eq_dec j i) as [->|Nj]; [now rewrite E|now rewrite (Eo j Nj)].
  - apply (move_well ks S); trivial. destruct W as (R & Ft & _). apply (so_reach cfg T nt A NT HA A32 m0 D K HD (New' cfg m0 New)); trivial.
  - destruct Wk as [i k Hi Hw E Em On|i Hi Hm E Em On]; (apply (well_same S); [trivial|trivial|]); intros j _; (destruct (Nat.eq_dec j i) as [->|Nj]; [now rewrite E|now rewrite (proj2 On)]).
Qed.
End SystemWrite.
