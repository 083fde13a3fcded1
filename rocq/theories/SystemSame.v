(** Reading a new table, all columns, in the session in which its rows were put. *)
From Verif Require Import Base BaseLemmas Floats TimeBlockBuffer TbbSpec BitStream BytePacker File FileProofs StMan StManSpec HeaderProofs StManProofs.
From Verif Require Import StochasticEncoder TimeBlockEncoders TbeSpec Weights WeightSpec Block BlockSpec Column ColumnSpec ColumnProofs ColumnInv ColumnReach ColumnTerm ColumnData ColumnOrder ColumnWhole ColumnAmong ColumnRead ColumnSession
  StoredColumn StoredProofs System SystemSpec UpdateSpec SessionSpec SystemLow SystemCols SystemInv SystemOrder SystemEnd SystemRead SystemTotal SystemGood SystemWrite SystemTerm SystemPuts SystemFinal SystemAll UpdateBlock ColumnUpdate SystemHeld SystemUpdate.
From Coq Require Import ZifyNat ZifyN.
Local Open Scope N_scope.
Local Arguments System.colenv : simpl never.

Lemma answer_step {e} (s s' : state e) x : step s s' -> outs s' = x :: outs s -> istep s s'.
Proof.
  intros St Ho. assert (Nn : forall l : list (N * answer (data e)), l <> x :: l) by (intros l Q; apply (f_equal (@length _)) in Q; cbn in Q; lia).
  inversion St as [? Si|a R0 C0 C1 A'|j Hj|Hj|j H1 H2 H3]; subst; trivial; exfalso; now apply (Nn (outs s)).
Qed.

Lemma row_ok_all c (x : tbb (sample (codec_of c))) :
  match c as c return tbb (sample (codec_of c)) -> Prop with CWeight p n b => fun x => Forall (Forall nonneg) (map (@visibilities f32) x) | _ => fun _ => True end x ->
  forall row, In row x -> row_ok c (visibilities row).
Proof. revert x. destruct c; cbn [row_ok]; trivial. intros x H row Hin. rewrite Forall_forall in H. apply H. now apply in_map. Qed.

Section same.
Context (cfg : nat -> coldef) (T : table) (nt : nat) (m0 : stman) (D : forall i, N -> list (data (colenv cfg T nt i))) (K : N) (L : nat -> f32) (n : N) (na : nat).
Hypothesis W : writable cfg T nt m0 D K L n na.
Notation sys := (sys cfg T nt).
Notation cst := (cst cfg T nt). Notation man := (man cfg T nt). Notation active := (active cfg T nt).
Notation ncol := (ncol cfg T nt). Notation running := (running cfg T nt). Notation colenv := (colenv cfg T nt).
Let NT := wr_threads _ _ _ _ _ _ _ _ _ W.
Let HA := allA_below T (wr_ants _ _ _ _ _ _ _ _ _ W).
Let HD : forall i r, (nSamp (colenv i) <= length (D i r))%nat := wr_rows _ _ _ _ _ _ _ _ _ W.
Let New := wr_new _ _ _ _ _ _ _ _ _ W.
Let Co := wr_columns _ _ _ _ _ _ _ _ _ W.
Let Da := wr_data _ _ _ _ _ _ _ _ _ W.
Let Ln := wr_more _ _ _ _ _ _ _ _ _ W.
Let Fn := wr_first _ _ _ _ _ _ _ _ _ W.
Let An := wr_count _ _ _ _ _ _ _ _ _ W.
Let Nm := wr_name _ _ _ _ _ _ _ _ _ W.
Let Af := wr_af _ _ _ _ _ _ _ _ _ W.
Let Tot := wr_size _ _ _ _ _ _ _ _ _ W.

Context (ks : nat -> N) (S0 : sys).
Hypotheses (Or : sys_order cfg T nt m0 D K ks S0) (Id0 : idle S0) (All : forall j, (j < ncol S0)%nat -> ks j = K /\ closed (cst S0 j) = false).
Notation okK := (fun r : N => r < K).
Notation Xs i := (upd_map (last (cst S0 i)) (cur (cst S0 i)) (tb (cst S0 i))).

Lemma Zn : n <> 0. Proof. destruct Fn. lia. Qed.

Lemma s_so : SO cfg T nt allA m0 D K ks S0 /\ running S0.
Proof. exact (all_so cfg T nt m0 D K L n na W ks S0 Or). Qed.

Lemma s_nc : ncol S0 = length (columns m0).
Proof. exact (all_ncol cfg T nt m0 D K L n na W ks S0 Or). Qed.

Lemma s_pos : (0 < ncol S0)%nat.
Proof. rewrite s_nc. pose proof (nw_columns _ _ New) as Q. clear - Q. destruct (columns m0); [easy|cbn; lia]. Qed.

Lemma s_k32 : K <= 2 ^ 32.
Proof.
  destruct s_so as (I & _). pose proof s_pos as Hi.
  destruct (All 0%nat Hi) as (E & _). rewrite <- E. exact (proj1 (order_within True (D 0%nat) (HD 0%nat) NT _ _ (o_order _ _ _ _ _ _ _ _ _ I 0%nat Hi))).
Qed.

Lemma s_put i : (i < ncol S0)%nat -> rpb (cst S0 i) = n /\ nant (cst S0 i) = na /\ changed (cst S0 i) = true /\
  (forall b, b * n < K -> exists x, Xs i b = Some x /\ exact_block (colenv i) (D i) K n b x) /\
  (forall b x, last (cst S0 i) b = Some x \/ Xs i b = Some x -> encodable (colenv i) n na x = true /\ b * n < K).
Proof.
  intros Hi. destruct s_so as (I & R). destruct (All i Hi) as (Ek & Cl). pose proof (o_order _ _ _ _ _ _ _ _ _ I i Hi) as Io. pose proof (o_among _ _ _ _ _ _ _ _ _ I i Hi) as Am. rewrite Ek in Io, Am.
  apply (all_put True (D i) (HD i) NT K n na (cst S0 i) Io (R i Hi) Cl (Id0 i Hi) Fn An Ln Am).
  intros r Ha. apply (Af i); trivial. now rewrite <- s_nc.
Qed.

Lemma s_reach0 i : (i < ncol S0)%nat -> reach (fresh (colenv i)) (cst S0 i).
Proof. intros Hi. destruct s_so as (I & R). exact (order_reach _ _ _ _ (o_order _ _ _ _ _ _ _ _ _ I i Hi)). Qed.

Lemma s_desc i : (i < ncol S0)%nat -> (0 < nPol_of (cfg i))%nat /\ (0 < nChan_of (cfg i))%nat.
Proof.
  intros Hi. rewrite s_nc in Hi. destruct (nth_error (columns m0) i) as [c|] eqn:Hc; [|apply nth_error_None in Hc; lia]. exact (proj2 (nw_described _ _ New i c Hc)).
Qed.

Lemma s_af i : (i < ncol S0)%nat -> af_of (cfg i) = true -> forall r, (fst (t_ants T r) < na)%nat /\ (snd (t_ants T r) < na)%nat.
Proof. intros Hi. apply (Af i). now rewrite <- s_nc. Qed.

Lemma n32 : n <= 2 ^ 32. Proof. pose proof s_k32. pose proof Ln. lia. Qed.

Lemma s_HX i : (i < ncol S0)%nat -> forall r, r < K -> exists x rw, Xs i (r / n) = Some x /\ nth_error x (N.to_nat (r mod n)) = Some rw /\ visibilities rw = firstn (nSamp (colenv i)) (D i r).
Proof.
  intros Hi r Hr. pose proof Zn as Zn. destruct (s_put i Hi) as (_ & _ & _ & P & _). destruct (P (r / n)) as (x & Hx & (_ & _ & Xb) & _); [pose proof (N.mul_div_le r n Zn); lia|].
  destruct (Xb r Hr eq_refl) as (rw & G1 & G2). eauto.
Qed.

Lemma s_HE i : (i < ncol S0)%nat -> forall b x, last (cst S0 i) b = Some x \/ Xs i b = Some x -> encodable (colenv i) n na x = true /\ b < 2 ^ 32.
Proof.
  intros Hi b x Hx. destruct (s_put i Hi) as (_ & _ & _ & _ & P). destruct (P b x Hx) as (P1 & P2). split; trivial. pose proof s_k32. pose proof Zn. nia.
Qed.

Lemma s_exact i b x : (i < ncol S0)%nat -> Xs i b = Some x -> exact_block (colenv i) (D i) K n b x /\ b * n < K.
Proof.
  intros Hi Hx. destruct (s_put i Hi) as (_ & _ & _ & P1 & P2). destruct (P2 b x (or_intror Hx)) as (_ & Hb). split; trivial.
  destruct (P1 b Hb) as (x' & Hx' & E). assert (x' = x) by congruence. now subst x'.
Qed.

Lemma s_HL i : (i < ncol S0)%nat -> forall b x y, Xs i b = Some x -> enc (colenv i) n na x y -> (length x <= length (dec (colenv i) n na b y))%nat.
Proof.
  intros Hi b x y Hx Ey. destruct (s_exact i b x Hi Hx) as (Xb & Hb). destruct (s_desc i Hi) as (P1 & P2).
  destruct (kept_rows T nt (cfg i) (L i) (D i) K n na b x y (Co i) (Da i) P1 P2 Zn n32 Hb (s_af i Hi) Xb Ey) as (rows & Hl & Hg).
  assert (Hd : dec (colenv i) n na b y = rows) by (unfold System.colenv; cbn [dec stored_column]; now rewrite Hl by apply repeat_length).
  rewrite Hd. destruct (Nat.le_gt_cases (length x) (length rows)) as [|Lt]; trivial. exfalso.
  destruct (nth_error x (length rows)) as [rw|] eqn:E; [|apply nth_error_None in E; lia]. destruct (Hg _ _ E) as (out & Ho & _).
  assert (length rows < length rows)%nat by (apply nth_error_Some; congruence). lia.
Qed.

Record RS (S : sys) : Prop := {
  rs_run : running S;
  rs_rows : rowsPerBlock (man S) = n;
  rs_ants : antennaCount (man S) = N.of_nat na;
  rs_cols : columns (man S) = columns (man S0);
  rs_bytes : bytes8 (fil (man S));
  rs_hist : history cfg T nt allA m0 S;
  rs_col : forall j, (j < ncol S)%nat -> reading okK (cst S0 j) (cst S j) }.

Lemma rs_nc S : RS S -> ncol S = ncol S0.
Proof. intros H. unfold System.ncol. now rewrite (rs_cols _ H). Qed.

Lemma s_fits0 : fits32 (man S0).
Proof. destruct (order_well cfg T nt allA NT HA allA_32 m0 D K L HD New Co n na Ln Fn An Nm Af Tot ks S0 Or) as (_ & Ft & _). exact Ft. Qed.

Lemma rs_fits S : RS S -> fits32 (man S).
Proof.
  intros H _. rewrite (rs_rows _ H), (rs_ants _ H), (rs_cols _ H). destruct s_so as (I & _). pose proof (s_shape _ _ _ _ _ _ (o_si _ _ _ _ _ _ _ _ _ I)) as Sh.
  rewrite (shape_total n (N.of_nat na) _ _ Sh). exact Tot.
Qed.

Lemma s_start : RS S0.
Proof.
  destruct s_so as (I & R). pose proof (o_si _ _ _ _ _ _ _ _ _ I) as Is. pose proof s_pos as Hi.
  destruct (s_put 0%nat Hi) as (E1 & E2 & _). pose proof Zn as Zn.
  assert (Ag : agree cfg T nt S0 0).
  { destruct (s_sync _ _ _ _ _ _ Is 0%nat Hi) as (S1 & S2). destruct (Nat.eq_dec 0 (active S0)) as [H|H]; [auto|]. destruct (S2 H) as [(G & _)|(m & _ & _ & G)]; [trivial|congruence]. }
  destruct Ag as (A1 & A2). constructor; trivial.
  - congruence.
  - rewrite E1, E2 in A2. symmetry. now apply A2.
  - destruct (order_well cfg T nt allA NT HA allA_32 m0 D K L HD New Co n na Ln Fn An Nm Af Tot ks S0 Or) as (_ & _ & B). exact B.
  - apply (o_hist _ _ _ _ _ _ _ _ _ I).
  - intros j _. constructor.
Qed.

Notation Rd := (sys_reading okK S0).

Lemma rs_sreach S : Rd S -> sreach cfg T nt (snew cfg T nt m0) S.
Proof.
  induction 1; [eapply order_sreach; eauto|eapply sreach_step; eauto..]; try (eapply ss_call; eauto; fail).
  - now apply ss_move.
  - now apply ss_wake.
Qed.

Lemma rs_si S : Rd S -> RS S -> SI cfg T nt allA (snew cfg T nt m0) S.
Proof. intros H R. apply (si_reach cfg T nt allA NT HA allA_32); [apply (Sm cfg T nt m0 (New' cfg m0 New))|now apply rs_sreach|apply R|now apply rs_fits]. Qed.

Lemma rs_q S i : RS S -> (i < ncol S)%nat -> qinv (cst S0 i) n na K (cst S i).
Proof.
  intros H Hi. rewrite (rs_nc S H) in Hi. destruct s_so as (I & R). destruct (s_put i Hi) as (E1 & E2 & E3 & _). destruct (All i Hi) as (_ & Cl).
  apply (qinv_reading (cst S0 i) n na K (D i) NT (s_reach0 i Hi) (R i Hi) E1 E2 Zn (Id0 i Hi) Cl E3 (s_HX i Hi) (s_HE i Hi) (s_HL i Hi)).
  apply (rs_col _ H). now rewrite (rs_nc S H).
Qed.

Lemma rs_inv S i : RS S -> (i < ncol S)%nat -> inv (fun _ => None) (cst S i).
Proof.
  intros H Hi. assert (Hi0 : (i < ncol S0)%nat) by now rewrite <- (rs_nc S H).
  apply (session_inv (cst S0 i) K NT (s_reach0 i Hi0)); [now apply (rs_col _ H)|now apply (rs_run _ H)].
Qed.

Lemma rs_step S i s' : RS S -> (i < ncol S)%nat -> step (cst S i) s' -> code (cst S i) <> [] \/ code s' = [] -> status s' = Running.
Proof.
  intros H Hi St Nc. assert (Hi0 : (i < ncol S0)%nat) by now rewrite <- (rs_nc S H). destruct s_so as (I & R). destruct (s_put i Hi0) as (E1 & E2 & E3 & _). destruct (All i Hi0) as (_ & Cl).
  refine (q_run _ _ _ _ _ (qinv_reading (cst S0 i) n na K (D i) NT (s_reach0 i Hi0) (R i Hi0) E1 E2 Zn (Id0 i Hi0) Cl E3 (s_HX i Hi0) (s_HE i Hi0) (s_HL i Hi0) s' _)).
  eapply rd_step; eauto. now apply (rs_col _ H).
Qed.

Lemma rs_code S i k q c : RS S -> (i < ncol S)%nat -> code (cst S i) = ISetRpb k q :: c -> False.
Proof.
  intros H Hi Hc. destruct (q_code _ _ _ _ _ (rs_q S i H Hi)) as [H' C B|r A H' C B|r A H' Cu C B|r A H' Ib Nc C B|r A H' Ib C B|H' C B|H' C B]; rewrite Hc in H'; try discriminate.
  - destruct H' as [H'|H']; discriminate.
  - destruct H' as [H'|[(H' & _)|(H' & _)]]; discriminate.
  - destruct H' as [H'|[H'|H']]; discriminate.
Qed.

Lemma rs_moved S S' : RS S -> running S' -> rowsPerBlock (man S') = n -> antennaCount (man S') = N.of_nat na -> columns (man S') = columns (man S0) -> bytes8 (fil (man S')) ->
  history cfg T nt allA m0 S' -> (forall j, (j < ncol S)%nat -> moved cfg T nt S S' j) -> RS S'.
Proof.
  intros H R Er Ea Ec B Hh Mv. constructor; trivial. intros j Hj. assert (Hj' : (j < ncol S)%nat) by (rewrite (rs_nc S H); unfold System.ncol in *; now rewrite <- Ec).
  destruct (Mv j Hj') as [E|St Nd|n' m' c Ha Hc Cl Rz Cj Clj E].
  - rewrite E. now apply (rs_col _ H).
  - eapply rd_step; eauto. now apply (rs_col _ H).
  - exfalso. eapply rs_code; eauto.
Qed.

Lemma rs_load S i col b c old : Rd S -> RS S -> nth_error (columns (man S)) i = Some col -> len old = co_blockSize col -> Forall (fun v => v < 2 ^ 8) old ->
  status (sys_load cfg T nt (man S) i col old (set_code (cst S i) c) b) = Running.
Proof.
  intros Hr H Hc Lo Fo. assert (Hi : (i < ncol S)%nat) by (unfold System.ncol; apply nth_error_Some; congruence).
  pose proof (rs_si S Hr H) as Is. destruct (rs_q S i H Hi) as [R Er En Mg _]. pose proof (rs_rows _ H) as Em. pose proof (rs_ants _ H) as Ea. pose proof Zn as Zn.
  assert (Zm : rowsPerBlock (man S) <> 0) by congruence. pose proof (rs_fits S H) as Ft.
  unfold sys_load. cbv zeta. set (s1 := if cached _ _ then _ else _).
  assert (Q : rpb s1 = n /\ nant s1 = na /\ status s1 = Running) by (unfold s1; destruct (cached _ b); cbn; auto).
  destruct Q as (Q1 & Q2 & Q3). clearbody s1. destruct (N.ltb_spec b (nBlocksInFile (man S))) as [Hb|Hb]; [|exact Q3].
  destruct (read_ok (man S) (s_placed _ _ _ _ _ _ Is) Ft Zm b i col Hc Hb (s_begun _ _ _ _ _ _ Is)) as (r & Err & Lr). rewrite Err.
  destruct (load_total (cfg i) (L i) (N.to_nat (rpb s1)) (nant s1) (block_ants T (rpb s1) b) (match r with Some y => y | None => old end)
      (repeat 0 (nSymbols (codec_of (cfg i)) (N.to_nat (rpb s1)))) (Co i)) as (rows & ->); [| | | |exact Q3].
  + destruct r as [y|]; [eapply read8; eauto; apply (rs_bytes _ H)|exact Fo].
  + destruct (si_described cfg T nt allA _ S i col Is (nw_described _ _ New) Hc) as (Ds & _).
    assert (Ll : len (match r with Some y => y | None => old end) = co_blockSize col) by (destruct r as [y|]; auto).
    rewrite (placed_size _ (s_placed _ _ _ _ _ _ Is) Zm i col Hc), Em, Ea, (size_agrees _ _ _ _ Ds) in Ll. rewrite Q1, Q2. apply Nat2N.inj. exact Ll.
  + apply repeat_length.
  + intros Ha r0 _. rewrite Q2. apply (s_af i); trivial. now rewrite <- (rs_nc S H).
Qed.

Lemma rs_call S S' i (a : call (colenv i)) : RS S -> scall cfg T nt S S' i a -> (forall s : state (colenv i), reading okK (cst S0 i) s -> status s = Running -> code s = [] -> closed s = false ->
  user_call a -> reading okK (cst S0 i) (set_code s (call_code a))) -> RS S'.
Proof.
  intros H (Hi & R & C0 & Ci & Uc & _ & E & Em & Ea & Eo) Hs. assert (Nc : ncol S' = ncol S) by (unfold System.ncol; now rewrite Em). constructor; try rewrite Em; try apply H.
  - unfold System.running. rewrite Nc. intros j Hj. destruct (Nat.eq_dec j i) as [->|Nj]; [rewrite E; now apply R|rewrite (Eo j Nj); now apply R].
  - apply (hist_same cfg T nt allA m0 (New' cfg m0 New) S S'); trivial; [|apply (rs_hist _ H)]. intros j _. destruct (Nat.eq_dec j i) as [->|Nj]; [now rewrite E|now rewrite (Eo j Nj)].
  - rewrite Nc. intros j Hj. destruct (Nat.eq_dec j i) as [->|Nj].
    + rewrite E. apply Hs; auto. now apply (rs_col _ H).
    + rewrite (Eo j Nj). now apply (rs_col _ H).
Qed.

Theorem rs_reading S : Rd S -> RS S.
Proof.
  induction 1 as [|S S' i row Hs IH Ok Sc|S S' i Hs IH Sc|S S' Hs IH Mv|S S' Hs IH Wk].
  - exact s_start.
  - apply (rs_call S S' i (Get row)); trivial. intros s Q1 Q2 Q3 Q4 Q5. now apply rd_get.
  - apply (rs_call S S' i Shutdown); trivial. intros s Q1 Q2 Q3 Q4 Q5. now apply rd_close.
  - pose proof (move_columns cfg T nt S S' Mv) as Nc. assert (Hs' : Rd S') by (eapply sr_move; eauto). pose proof (rs_si S Hs IH) as Is.
    assert (X : running S' /\ rowsPerBlock (man S') = n /\ antennaCount (man S') = N.of_nat na /\ columns (man S') = columns (man S0) /\ bytes8 (fil (man S'))).
    { destruct Mv as [i x c Hi R Hc Mw P Oi E Em On|i b c col old Hn R Hc Mw Oi Lo Fo E Em On|i n' m' c Hi R Hc Mw Ha Oi Ei E Ea Eo|
        i n' m' c Hi R Hc Mw Ha Oi Ei E Em On|i n' m' c Hi R Hc Mw Ha E Em On|i k w y s' w' col Hn R Hw Ey E Es Em Ea Eo].
      - rewrite Em. split; [|split; [apply IH|split; [apply IH|split; apply IH]]]. unfold System.running. rewrite Nc. intros j Hj. destruct (Nat.eq_dec j i) as [->|Nj]; [|rewrite (proj2 On j Nj); now apply IH].
        apply (rs_step S i); trivial; [|left; congruence]. apply step_int. apply step_main with (junk := None) (i := x) (c := c); trivial; [now apply R|exact Logic.I].
      - rewrite Em. split; [|split; [apply IH|split; [apply IH|split; apply IH]]]. unfold System.running. rewrite Nc. intros j Hj. destruct (Nat.eq_dec j i) as [->|Nj]; [|rewrite (proj2 On j Nj); now apply IH].
        rewrite E. now apply rs_load.
      - exfalso. eapply rs_code; eauto.
      - exfalso. eapply rs_code; eauto.
      - exfalso. eapply rs_code; eauto.
      - assert (Hi : (i < ncol S)%nat) by (apply nth_error_Some; congruence). split.
        + unfold System.running. rewrite Nc. intros j Hj. destruct (Nat.eq_dec j i) as [->|Nj]; [|rewrite (Eo j Nj); now apply IH].
          rewrite Es. apply (rs_step S i); trivial.
          * apply step_int. apply step_worker with (w := w) (y := y); trivial. now apply R.
          * apply code_dec. now apply (wexec_closing _ _ _ _ _ k E).
        + rewrite Em. destruct w as [| | |b x|b|]; try (split; [apply IH|split; [apply IH|split; apply IH]]). destruct (encodable _ _ _ _) eqn:En; [|split; [apply IH|split; [apply IH|split; apply IH]]].
          specialize (Ey b x eq_refl En). destruct (write_settings (man S) b col y) as (-> & -> & _ & _ & -> & _).
          split; [apply IH|split; [apply IH|split; [apply IH|]]]. rewrite writeCompressed_fil. apply write8; [apply IH|]. eapply enc_fits. exact Ey. }
    destruct X as (R' & Er & Ea & Ec & B8).
    assert (Is' : SI cfg T nt allA (snew cfg T nt m0) S').
    { apply (si_reach cfg T nt allA NT HA allA_32); [apply (Sm cfg T nt m0 (New' cfg m0 New))|now apply rs_sreach|exact R'|].
      intros _. rewrite Er, Ea, Ec, <- (rs_rows _ IH), <- (rs_ants _ IH), <- (rs_cols _ IH). apply (rs_fits S IH). rewrite (rs_rows _ IH). exact Zn. }
    pose proof (moves cfg T nt allA NT HA allA_32 _ S S' (Sm cfg T nt m0 (New' cfg m0 New)) Is Is' Mv R') as Mvd.
    apply (rs_moved S); trivial. pose proof (rs_hist _ IH) as Hh.
    assert (Same : man S' = man S -> (forall j, (j < ncol S)%nat -> file (cst S' j) = file (cst S j)) -> history cfg T nt allA m0 S') by (intros Q1 Q2; now apply (hist_same cfg T nt allA m0 (New' cfg m0 New) S S' Q1 Q2)).
    destruct Mv as [i x c Hi R Hc Mw P Oi E Em On|i b c col old Hn R Hc Mw Oi Lo Fo E Em On|i n' m' c Hi R Hc Mw Ha Oi Ei E Ea' Eo|
        i n' m' c Hi R Hc Mw Ha Oi Ei E Em On|i n' m' c Hi R Hc Mw Ha E Em On|i k w y s' w' col Hn R Hw Ey E Es Em Ea' Eo].
    + apply Same; trivial. intros j Hj. destruct (Nat.eq_dec j i) as [->|Nj]; [apply (exec_plain _ _ _ _ P E)|now rewrite (proj2 On)].
    + apply Same; trivial. intros j Hj. destruct (Nat.eq_dec j i) as [->|Nj]; [now rewrite E, load_file|now rewrite (proj2 On)].
    + exfalso. eapply rs_code; eauto.
    + exfalso. eapply rs_code; eauto.
    + exfalso. eapply rs_code; eauto.
    + assert (Hi : (i < ncol S)%nat) by (unfold System.ncol; apply nth_error_Some; now rewrite Hn).
      pose proof (rs_inv S i IH Hi) as Iv. destruct (wexec_fields _ _ _ _ _ k E) as (_ & _ & _ & _ & _ & _ & _ & F). cbv zeta in F. rewrite <- Es in F. specialize (F (R i Hi) (R' i ltac:(lia))).
      assert (Nw : (forall b x, w <> WPicked b x) -> history cfg T nt allA m0 S').
      { intros Nw. apply Same.
        - rewrite Em. destruct w; trivial. now destruct (Nw b x).
        - intros j Hj. destruct (Nat.eq_dec j i) as [->|Nj]; [destruct w; try apply F; now destruct (Nw b x)|now rewrite (Eo j Nj)]. }
      destruct w as [| | |b x|b|]; try (apply Nw; discriminate). destruct F as (F1 & F2 & F3). rewrite F1 in Em. clear Nw.
      specialize (Ey b x eq_refl F1). pose proof Zn as Zn. assert (Rm : rowsPerBlock (man S) <> 0) by (rewrite (rs_rows _ IH); exact Zn).
      destruct (write_settings (man S) b col y) as (W1 & W2 & _ & _ & W5 & W6). rewrite <- Em in W1, W2, W5, W6.
      destruct Hh as [(Z & _)|(n1 & na1 & m1 & ws & H1 & H2 & H3 & H4 & H5 & H6 & H7 & H8)]; [easy|]. right. exists n1, na1, m1, (ws ++ [(b, col, y)]).
      repeat (split; [assumption|]). destruct (SystemOrder.writes_settings ws m1) as (_ & _ & Ecw). rewrite <- H5 in Ecw.
      split; [|split; [|split]].
      * unfold writes. rewrite fold_left_app. fold (writes m1 ws). rewrite <- H5. exact Em.
      * apply Forall_app. split; trivial. constructor; [|constructor]. cbn [fst snd].
        assert (Ly : len y = co_blockSize col) by (apply (s_file _ _ _ _ _ _ Is' i col b y); [now rewrite W5|]; rewrite F2; unfold upd_map; now rewrite N.eqb_refl).
        split; [rewrite <- Ecw; eapply nth_error_In; eauto|]. split; trivial. intros ->. destruct (si_described _ _ _ _ _ _ _ _ Is (nw_described _ _ New) Hn) as (Ds & Dp & Dc).
        rewrite (placed_size _ (s_placed _ _ _ _ _ _ Is) Rm i col Hn) in Ly. pose proof (size_pos _ _ (rowsPerBlock (man S)) (antennaCount (man S)) Ds Dp Dc Rm) as Q. clear - Ly Q. cbn in Ly. lia.
      * intros j cj b' z Hj Hf. destruct (Nat.eq_dec j i) as [->|Nj].
        -- rewrite F2 in Hf. rewrite <- Ecw, Hn in Hj. injection Hj as <-. unfold upd_map in Hf. destruct (N.eqb_spec b' b) as [->|Nb].
           ++ exists y. apply in_or_app. right. now left.
           ++ destruct (H7 i col b' z) as (d & Hd); [now rewrite <- Ecw|trivial|]. exists d. apply in_or_app. now left.
        -- rewrite (Eo j Nj) in Hf. destruct (H7 j cj b' z Hj Hf) as (d & Hd). exists d. apply in_or_app. now left.
      * intros b' cj d Hd. apply in_app_or in Hd as [Hd|[[= <- <- <-]|[]]].
        -- destruct (H8 b' cj d Hd) as (j & Hj & Hf). exists j. split; trivial. destruct (Nat.eq_dec j i) as [->|Nj].
           ++ rewrite F2. unfold upd_map. destruct (N.eqb_spec b' b); [discriminate|exact Hf].
           ++ rewrite (Eo j Nj). exact Hf.
        -- exists i. split; [now rewrite <- Ecw|]. rewrite F2. unfold upd_map. rewrite N.eqb_refl. discriminate.
  - assert (Em : man S' = man S) by (destruct Wk; trivial). pose proof (wakes cfg T nt S S' Wk) as Mv. assert (Nc : ncol S' = ncol S) by (unfold System.ncol; now rewrite Em).
    apply (rs_moved S); trivial; try rewrite Em; try apply IH.
    + unfold System.running. rewrite Nc. intros j Hj. destruct (Mv j Hj) as [E|Ss Nd|n' m' c Ha Hc Cl Rz Cj Clj E].
      * rewrite E. now apply IH.
      * now apply (rs_step S j).
      * rewrite E. now apply IH.
    + apply (hist_same cfg T nt allA m0 (New' cfg m0 New) S S'); trivial; [|apply (rs_hist _ IH)].
      destruct Wk as [i k Hi Hw E _ On|i Hi Hm E _ On]; intros j _; (destruct (Nat.eq_dec j i) as [->|Nj]; [now rewrite E|now rewrite (proj2 On)]).
Qed.
(** ** Results *)
Notation row_put i r := (DRow (fst (t_ants T r)) (snd (t_ants T r)) (firstn (nPol_of (cfg i) * nChan_of (cfg i)) (D i r))).
Notation meta i y := (floats (nMetaFloats (codec_of (cfg i)) (N.to_nat n) na) y).

(** a row as put, or as kept in the file *)
Definition same_row (i : nat) (r : N) (v : list (data (colenv i))) : Prop :=
  v = firstn (nPol_of (cfg i) * nChan_of (cfg i)) (D i r) \/
  exists x y, exact_block (colenv i) (D i) K n (r / n) x /\ enc (colenv i) n na x y /\ kept (cfg i) (L i) na x (meta i y) (row_put i r) v.

Lemma same_step S i s' r a : RS S -> (i < ncol S)%nat -> istep (cst S i) s' -> outs s' = (r, a) :: outs (cst S i) ->
  r < K /\ ((a = AZero /\ nblk (cst S i) <= r / n) \/ exists v, a = AVals v /\ same_row i r v).
Proof.
  intros H Hi St Ho. assert (Hi0 : (i < ncol S0)%nat) by now rewrite <- (rs_nc S H). destruct s_so as (I & R). destruct (s_put i Hi0) as (E1 & E2 & E3 & _). destruct (All i Hi0) as (_ & Cl).
  destruct (session_answers (cst S0 i) n na K (D i) NT (s_reach0 i Hi0) (R i Hi0) E1 E2 Zn (Id0 i Hi0) Cl E3 (s_HX i Hi0) (s_HE i Hi0) (s_HL i Hi0) (cst S i) s' r a (rs_col _ H i Hi) St Ho) as (Hr & [Q|(v & Q1 & Q2)]).
  - split; trivial. now left.
  - split; trivial. right. exists v. split; trivial. destruct Q2 as [Q2|(x & y & Hx & _ & Ey & Q2)]; [left; exact Q2|right].
    destruct (s_exact i _ x Hi0 Hx) as (Xb & _). destruct (s_desc i Hi0) as (P1 & P2).
    destruct (kept_row T nt (cfg i) (L i) (D i) K n na x y r (Co i) (Da i) P1 P2 Zn n32 Hr (s_af i Hi0) Xb Ey) as (out & Ho' & Hk).
    assert (out = v) by (refine (f_equal (fun o => match o with Some u => u | None => out end) (eq_trans (eq_sym Ho') Q2))). subst out. exists x, y. split; trivial. split; trivial.
Qed.

Lemma rs_nblk S i : Rd S -> RS S -> (i < ncol S)%nat -> nblk (cst S i) = nBlocksInFile (man S).
Proof. intros Hr H Hi. exact (s_nblk _ _ _ _ _ _ (rs_si S Hr H) i Hi). Qed.

Lemma rs_grow S S' : smove cfg T nt S S' -> RS S -> nBlocksInFile (man S) <= nBlocksInFile (man S').
Proof.
  intros [i x c Hi R Hc Mw P Oi E Em On|i b c col old Hn R Hc Mw Oi Lo Fo E Em On|i n' m' c Hi R Hc Mw Ha Oi Ei E Ea' Eo|
        i n' m' c Hi R Hc Mw Ha Oi Ei E Em On|i n' m' c Hi R Hc Mw Ha E Em On|i k w y s' w' col Hn R Hw Ey E Es Em Ea' Eo] H; try (rewrite Em; apply N.le_refl).
  - exfalso. eapply rs_code; eauto.
  - rewrite Em. destruct w as [| | |b x|b|]; try apply N.le_refl. destruct (encodable _ _ _ _); [|apply N.le_refl]. destruct (write_settings (man S) b col y) as (_ & _ & _ & _ & _ & ->). apply N.le_max_l.
Qed.

Theorem same_get S i r S1 S2 : Rd S -> r < K -> scall cfg T nt S S1 i (Get r) -> srun S1 S2 -> idle S2 ->
  Rd S2 /\ exists a, outs (cst S2 i) = (r, a) :: outs (cst S i) /\ ((a = AZero /\ nBlocksInFile (man S) <= r / n) \/ exists v, a = AVals v /\ same_row i r v).
Proof.
  intros Hs Ok Sc Run Id. assert (Hi : (i < ncol S)%nat) by apply Sc.
  assert (H1 : Rd S1) by (eapply sr_get; eauto).
  set (good := fun a : answer (data (colenv i)) => (a = AZero /\ nBlocksInFile (man S) <= r / n) \/ exists v, a = AVals v /\ same_row i r v).
  assert (X : Rd S2 /\ (i < ncol S2)%nat /\ nBlocksInFile (man S) <= nBlocksInFile (man S2) /\ answering r (outs (cst S i)) (cst S2 i) /\
    forall a, outs (cst S2 i) = (r, a) :: outs (cst S i) -> good a).
  { assert (Nn : forall x (o : list (N * answer (data (colenv i)))), o <> x :: o) by (intros x o Q; apply (f_equal (@length _)) in Q; cbn in Q; clear - Q; lia).
    assert (St : forall S3 S4, Rd S3 -> Rd S4 -> (i < ncol S3)%nat -> ncol S4 = ncol S3 -> nBlocksInFile (man S) <= nBlocksInFile (man S3) -> answering r (outs (cst S i)) (cst S3 i) ->
      (forall a, outs (cst S3 i) = (r, a) :: outs (cst S i) -> good a) -> moved cfg T nt S3 S4 i ->
      answering r (outs (cst S i)) (cst S4 i) /\ forall a, outs (cst S4 i) = (r, a) :: outs (cst S i) -> good a).
    { intros S3 S4 E3 E4 H3 Nc Gr A3 Q3 Mv. pose proof (rs_reading _ E3) as U3. pose proof (rs_reading _ E4) as U4.
      destruct Mv as [E|Ss Nd|n' m' c Ha Hc Cl' Rz Cj Clj E].
      - now rewrite E.
      - assert (R4 : status (cst S4 i) = Running) by (apply (rs_run _ U4); rewrite Nc; exact H3). split; [eapply answering_step; eauto|].
        intros a Ho. destruct A3 as [(Ho3 & l3 & x3 & Hc3 & _)|(C3 & a3 & Ho3)].
        + rewrite <- Ho3 in Ho. destruct (same_step S3 i (cst S4 i) r a U3 H3 (answer_step _ _ _ Ss Ho) Ho) as (_ & [(Q1 & Q2)|Q]); [left|right; exact Q].
          split; trivial. rewrite (rs_nblk S3 i E3 U3 H3) in Q2. eapply N.le_trans; eauto.
        + inversion Ss as [? Si Eq|a' R0 C0 C1 A' Eq|j Hj Eq|Hj Eq|j G1 G2 G3 Eq].
          * destruct (answering_step r (outs (cst S i)) (cst S3 i) (cst S4 i)) as [(Ho4 & _)|(C4 & a4 & Ho4)]; eauto; [right; eauto|exfalso; rewrite Ho4 in Ho; now apply (Nn (r, a) (outs (cst S i)))|].
            assert (Eo : outs (cst S4 i) = outs (cst S3 i)) by (apply quiet_outs; trivial).
            apply Q3. congruence.
          * apply Q3. rewrite <- Ho, <- Eq. reflexivity.
          * apply Q3. rewrite <- Ho, <- Eq. reflexivity.
          * apply Q3. rewrite <- Ho, <- Eq. reflexivity.
          * apply Q3. rewrite <- Ho, <- Eq. reflexivity.
      - exfalso. eapply (rs_code S3); eauto. }
    clear Id. induction Run as [|S3 S4 Run IH Mv|S3 S4 Run IH Wk].
    - split; trivial. destruct Sc as (_ & _ & _ & _ & _ & _ & E & Em & _). split; [unfold System.ncol; rewrite Em; exact Hi|]. split; [rewrite Em; apply N.le_refl|]. rewrite E. split.
      + left. split; [reflexivity|]. exists [], (IGet r). repeat split; [constructor|now left].
      + intros a Q. exfalso. now apply (Nn (r, a) (outs (cst S i))).
    - destruct IH as (E3 & H3 & Gr & A3 & Q3). assert (E4 : Rd S4) by (eapply sr_move; eauto). pose proof (move_columns cfg T nt S3 S4 Mv) as Nc. split; trivial. split; [rewrite Nc; exact H3|].
      pose proof (rs_reading _ E3) as U3. pose proof (rs_reading _ E4) as U4. split; [eapply N.le_trans; [exact Gr|now apply rs_grow]|]. apply (St S3); trivial.
      apply (moves cfg T nt allA NT HA allA_32 (snew cfg T nt m0) S3 S4); trivial; [apply (Sm cfg T nt m0 (New' cfg m0 New))|now apply rs_si|now apply rs_si|apply (rs_run _ U4)].
    - destruct IH as (E3 & H3 & Gr & A3 & Q3). assert (E4 : Rd S4) by (eapply sr_wake; eauto).
      assert (Em : man S4 = man S3) by (destruct Wk; trivial). assert (Nc : ncol S4 = ncol S3) by (unfold System.ncol; now rewrite Em). split; trivial. split; [rewrite Nc; exact H3|]. split; [now rewrite Em|].
      apply (St S3); trivial. now apply (wakes cfg T nt S3 S4 Wk). }
  destruct X as (Rd2 & H2 & _ & [(_ & l2 & x & Hc & _)|(_ & a & Ha)] & Q); [rewrite (Id i H2) in Hc; destruct l2; discriminate|].
  split; trivial. exists a. split; trivial. exact (Q a Ha).
Qed.

Theorem same_finishes S : Rd S -> sfinishes S.
Proof.
  intros H. assert (P : Rd S) by exact H. revert S P H. intros S _.
  apply (sys_finishes cfg T nt allA NT (snew cfg T nt m0) Rd).
  - apply (Sm cfg T nt m0 (New' cfg m0 New)).
  - intros S1 H1. apply rs_si; trivial. now apply rs_reading.
  - intros S1 H1. apply (rs_run _ (rs_reading _ H1)).
  - intros S1 S2 H1 Mv. eapply sr_move; eauto.
  - intros S1 i H1 Hi b x Hw Ex. pose proof (rs_reading _ H1) as U. assert (Hi0 : (i < ncol S0)%nat) by now rewrite <- (rs_nc S1 U).
    destruct (s_desc i Hi0) as (P1 & P2). pose proof (rs_q S1 i U Hi) as Qi. destruct s_so as (I & R).
    assert (Y : x <> [] /\ only_put (colenv i) (D i) n b x).
    { destruct (session_picked (cst S0 i) n na K (cst S1 i) b x (rs_inv S1 i U Hi) Qi Hw) as [Hl|Hx].
      - split; [exact (proj2 (l_last _ _ (s_low _ _ _ _ _ _ (o_si _ _ _ _ _ _ _ _ _ I) i Hi0) b x Hl))|].
        destruct (s_put i Hi0) as (E1 & _). pose proof (order_puts cfg T nt allA NT HA allA_32 m0 D K L HD New Co Da n na Ln Fn An Nm Af Tot ks S0 Or i Hi0) as Pu.
        unfold puts in Pu. rewrite E1 in Pu. exact (Pu Zn b x Hl).
      - destruct (s_exact i b x Hi0 Hx) as ((Xb & Lx) & Hb). pose proof Zn as Zn. split.
        + intros Q. rewrite Q in Lx. cbn in Lx. clear - Lx Hb Zn. lia.
        + apply (short_only_put _ (D i) K n b x Zn Xb). rewrite Lx. clear - Hb. lia. }
    destruct Y as (Nx & Pu). apply (col_encodes (cfg i) (L i) T nt); trivial.
    exact (weights_nonneg (cfg i) (D i) T nt n b x (Da i) Pu).
  - intros S1 i k q c H1 Hi _ Hc. exact (False_ind _ (rs_code S1 i k q c (rs_reading _ H1) Hi Hc)).
Qed.
(** ** What the file holds in the end *)
Notation held := (held cfg T nt m0 K n na).

Theorem same_runs_ S : Rd S -> running S /\ sfinishes S.
Proof. intros H. split; [exact (rs_run _ (rs_reading S H))|exact (same_finishes S H)]. Qed.

Lemma closed_block S i b : Rd S -> all_closed S -> (i < ncol S)%nat -> b * n < K -> exists x y, file (cst S i) b = Some y /\ exact_block (colenv i) (D i) K n b x /\ enc (colenv i) n na x y.
Proof.
  intros Hs Cl Hi Hb. pose proof (rs_reading _ Hs) as U. assert (Hi0 : (i < ncol S0)%nat) by now rewrite <- (rs_nc S U). destruct s_so as (I & R).
  destruct (s_put i Hi0) as (E1 & E2 & E3 & P1 & _). destruct (All i Hi0) as (_ & Cl0). destruct (P1 b Hb) as (x & Hx & Xb). destruct (Cl i Hi) as (C1 & C2).
  destruct (session_blocks (cst S0 i) n na K (D i) NT (s_reach0 i Hi0) (R i Hi0) E1 E2 Zn (Id0 i Hi0) Cl0 E3 (s_HX i Hi0) (s_HE i Hi0) (s_HL i Hi0) (cst S i) (rs_col _ U i Hi) C1 C2 b x Hx) as (y & Hy & Ey).
  exists x, y. auto.
Qed.

Lemma file_within S i b : RS S -> (i < ncol S)%nat -> file (cst S i) b <> None -> b * n < K.
Proof.
  intros U Hi Hf. assert (Hi0 : (i < ncol S0)%nat) by now rewrite <- (rs_nc S U). pose proof (rs_inv S i U Hi) as Iv.
  destruct (last (cst S i) b) as [x|] eqn:Hl; [|exfalso; apply Hf; exact (i_file _ _ Iv b Hl)].
  destruct (s_put i Hi0) as (_ & _ & _ & _ & P). apply (P b x). destruct (qcode_last _ _ _ _ (cst S i) (q_code _ _ _ _ _ (rs_q S i U Hi))) as [Q|Q]; rewrite Q in Hl; auto.
Qed.

Theorem same_held S : Rd S -> all_closed S -> n < 2 ^ 32 /\ N.of_nat na < 2 ^ 32 /\ held (man S).
Proof.
  intros Hs Cl. pose proof (rs_reading _ Hs) as U. pose proof (rs_si S Hs U) as Is. pose proof Zn as Zn. pose proof (rs_nc S U) as Nc. pose proof s_pos as Ps.
  destruct (rs_hist _ U) as [(Z & _)|(n' & na' & m1 & ws & H1 & H2 & H3 & H4 & H5 & H6 & H7 & H8)]; [exfalso; pose proof (rs_rows _ U); congruence|].
  destruct (H1 0%nat) as (F1 & F2). assert (n' = n) by exact (first_block_unique _ _ _ F1 Fn). subst n'. assert (na' = na) by exact (antenna_count_unique _ _ _ _ F2 An). subst na'. clear F1 F2.
  assert (La : N.of_nat na < 2 ^ 32) by (pose proof allA_32 as Q; clear - H3 Q; lia). split; trivial. split; trivial.
  destruct (init_manager _ _ _ _ H2 La H4) as (M1 & M2 & M3 & M4 & M5). destruct (StManProofs.writes_settings ws m1) as (W0 & W1 & W2 & W3).
  assert (Cs : columns (man S) = columns m1) by (rewrite H5; apply SystemOrder.writes_settings).
  assert (Hin : forall i col, nth_error (columns m1) i = Some col -> (i < ncol S)%nat) by (intros i col Q; unfold System.ncol; rewrite Cs; apply nth_error_Some; congruence).
  assert (Hcol : forall i, (i < ncol S)%nat -> exists col, nth_error (columns (man S)) i = Some col).
  { intros i Hi. destruct (nth_error (columns (man S)) i) eqn:E; [eauto|]. apply nth_error_None in E. unfold System.ncol in Hi. clear - E Hi. lia. }
  assert (Eb : forall b, b < nBlocksInFile (man S) <-> b * n < K).
  { intros b. split.
    - intros Hb. assert (Nb : nBlocksInFile m1 = 0) by (rewrite M3; apply New).
      destruct (blocks_written ws m1 Nb) as (B1 & B2). destruct ws as [|w ws]; [exfalso; rewrite H5 in Hb; cbn in Hb; clear - Hb Nb; lia|].
      destruct (B2 ltac:(discriminate)) as (b' & c' & d' & Hin' & Eb). rewrite <- H5 in Eb. destruct (H8 _ _ _ Hin') as (i & Hc' & Hf).
      pose proof (file_within S i b' U (Hin i c' Hc') Hf) as Q. clear - Q Eb Hb Zn. nia.
    - intros Hb. assert (Hi : (0 < ncol S)%nat) by (rewrite Nc; exact Ps). destruct (closed_block S 0 b Hs Cl Hi Hb) as (x & y & Hy & _). destruct (Hcol 0%nat Hi) as (c0 & Hc0). now apply (s_file _ _ _ _ _ _ Is 0%nat c0 b y). }
  assert (Hlast : exists k w, Datatypes.S k = length (columns m1) /\ nth_error (columns m1) k = Some w).
  { unfold System.ncol in Nc. rewrite Cs in Nc. destruct (length (columns m1)) as [|k] eqn:El; [exfalso; clear - Nc Ps; unfold System.ncol in Ps; lia|]. exists k.
    destruct (nth_error (columns m1) k) as [w|] eqn:E; [exists w; auto|]. apply nth_error_None in E. clear - E El. lia. }
  destruct Hlast as (k & w & Hk & Hw).
  assert (X : 0 < nBlocksInFile (man S)) by (apply Eb; pose proof Ln as Q; clear - Q; lia).
  destruct (closed_block S k (nBlocksInFile (man S) - 1) Hs Cl (Hin k w Hw)) as (xl & yl & Fl & _); [apply Eb; clear - X; lia|].
  destruct (H7 k w _ yl Hw Fl) as (dl & Hdl).
  constructor; trivial.
  - exists m1, ws, w, k, dl. split; [exact H4|]. split; [exact Hk|]. split; [exact Hw|]. split; [exact H6|]. split; [exact Hdl|]. rewrite H5. auto.
  - apply (rs_rows _ U).
  - apply (rs_ants _ U).
  - apply (rs_bytes _ U).
  - apply (s_small _ _ _ _ _ _ Is).
  - apply (s_begun _ _ _ _ _ _ Is).
  - intros i col b Hc Hb. assert (Hi : (i < ncol S)%nat) by (unfold System.ncol; apply nth_error_Some; congruence). assert (Hi0 : (i < ncol S0)%nat) by now rewrite <- Nc.
    apply Eb in Hb. destruct (closed_block S i b Hs Cl Hi Hb) as (x & y & Fy & Xb & Eny). exists y. split; [apply (s_file _ _ _ _ _ _ Is i col b y Hc Fy)|].
    destruct (s_desc i Hi0) as (P1 & P2). destruct Xb as (Xb & Lx).
    apply (enc_sound T nt (cfg i) (L i) n na x y (Co i) P1 Eny); [|now apply s_af].
    intros row Hin'. split.
    + apply In_nth_error in Hin' as (q & Hq). destruct Xb as (_ & Xb & _). exact (proj2 (Xb q row Hq)).
    + revert row Hin'. apply row_ok_all. refine (weights_nonneg (cfg i) (D i) T nt n b x (Da i) _). apply (short_only_put _ (D i) K n b x); [exact Zn|exact Xb|]. rewrite Lx. clear - Hb. lia.
Qed.

Theorem same_reopened S mo nr : Rd S -> all_closed S -> reopens (man S) mo -> exists m2 m3, openMan nr mo = Ok m2 /\ prepareMan m2 = Ok m3 /\
  columns m3 = columns (man S) /\ rowsPerBlock m3 = n /\ antennaCount m3 = N.of_nat na /\ same_options m0 m3 /\
  forall i r, (i < length (columns m3))%nat -> r < K -> exists out x y, held_row cfg T nt m3 i r = Some out /\ held_block cfg T nt m3 i (r / n) = Some y /\
    exact_block (colenv i) (D i) K n (r / n) x /\ enc (colenv i) n na x y /\ kept (cfg i) (L i) na x (meta i y) (row_put i r) out.
Proof.
  intros Hs Cl Ro. destruct (same_held S Hs Cl) as (N32 & Na32 & Hh). pose proof Zn as Zn. assert (Zn' : 0 < n) by (clear - Zn; lia).
  destruct (held_open cfg T nt m0 K n na New Zn' N32 Na32 Tot (man S) mo nr Hh Ro) as (m2 & m3 & O & P & H3 & Q1 & Q2 & Q3 & Q4 & Q5).
  exists m2, m3. split; trivial. split; trivial. split; trivial. split; [apply H3|]. split; [apply H3|]. split; trivial.
  intros i r Hi Hr. rewrite Q1 in Hi. pose proof (rs_reading _ Hs) as U. pose proof (rs_si S Hs U) as Is. assert (Hi0 : (i < ncol S0)%nat) by now rewrite <- (rs_nc S U).
  destruct (nth_error (columns (man S)) i) as [col|] eqn:Hc; [|apply nth_error_None in Hc; clear - Hc Hi; lia].
  assert (Hb : r / n * n < K) by (pose proof (N.mul_div_le r n Zn) as Q; clear - Q Hr; lia).
  destruct (closed_block S i (r / n) Hs Cl Hi Hb) as (x & y & Fy & Xb & Ey). destruct (s_desc i Hi0) as (P1 & P2).
  destruct (kept_row T nt (cfg i) (L i) (D i) K n na x y r (Co i) (Da i) P1 P2 Zn n32 Hr (s_af i Hi0) Xb Ey) as (out & Ho & Hk).
  destruct (s_file _ _ _ _ _ _ Is i col (r / n) y Hc Fy) as (L1 & L2 & L3).
  assert (Hd : held_block cfg T nt m3 i (r / n) = Some y).
  { unfold held_block. rewrite Q1, Hc. unfold disk. rewrite Q3, (proj2 (N.ltb_lt _ _) L1), Q5. change (readCompressedData (man S) (r / n) col (co_blockSize col) = Ok (Some y)) in L3. now rewrite L3. }
  exists out, x, y. split; [|split; [exact Hd|split; [exact Xb|split; [exact Ey|exact Hk]]]].
  unfold held_row, stored_row. rewrite (hd_rows _ _ _ _ _ _ _ _ H3), (hd_ants _ _ _ _ _ _ _ _ H3), Nat2N.id, Hd. exact Ho.
Qed.

(** ** The last block *)
(** no block of the file holds the last row, as long as no column has put away its last block *)
Lemma last_absent S : Rd S -> (forall j, (j < ncol S)%nat -> last (cst S j) = last (cst S0 j)) -> nBlocksInFile (man S) <= (K - 1) / n.
Proof.
  intros Hs Hl. pose proof (rs_reading _ Hs) as U. pose proof Zn as Zn. pose proof (rs_nc S U) as Nc.
  destruct (rs_hist _ U) as [(Z & _)|(n' & na' & m1 & ws & H1 & H2 & H3 & H4 & H5 & H6 & H7 & H8)]; [exfalso; pose proof (rs_rows _ U); congruence|].
  assert (Nb : nBlocksInFile m1 = 0).
  { assert (La : N.of_nat na' < 2 ^ 32) by (pose proof allA_32 as Q; clear - H3 Q; lia). destruct (init_manager _ _ _ _ H2 La H4) as (_ & _ & M3 & _). rewrite M3. apply New. }
  destruct (blocks_written ws m1 Nb) as (_ & B2). destruct ws as [|w ws]; [rewrite H5; cbn; rewrite Nb; apply N.le_0_l|].
  destruct (B2 ltac:(discriminate)) as (b & c & d & Hin & Eb). rewrite <- H5 in Eb. destruct (H8 _ _ _ Hin) as (i & Hc & Hf).
  assert (Cs : columns (man S) = columns m1) by (rewrite H5; apply SystemOrder.writes_settings).
  assert (Hi : (i < ncol S)%nat) by (unfold System.ncol; rewrite Cs; apply nth_error_Some; congruence). assert (Hi0 : (i < ncol S0)%nat) by now rewrite <- Nc.
  destruct (last (cst S i) b) as [x|] eqn:Hx; [|exfalso; apply Hf; exact (i_file _ _ (rs_inv S i U Hi) b Hx)]. rewrite (Hl i Hi) in Hx.
  destruct s_so as (I & R). destruct (All i Hi0) as (Ek & Cl). destruct (s_put i Hi0) as (E1 & _).
  pose proof (o_among _ _ _ _ _ _ _ _ _ I i Hi0) as Am. unfold among in Am. rewrite E1, Ek in Am. destruct (Am Zn) as (_ & Am2). destruct (Am2 b x Hx) as (_ & Q). specialize (Q Cl).
  apply N.div_le_lower_bound; [exact Zn|]. rewrite Eb, (N.mul_comm n). clear - Q. lia.
Qed.

(** only rows of the last block are read *)
Definition okl (r : N) : Prop := r < K /\ r / n = (K - 1) / n.
Definition untouched (S : sys) : Prop := forall j, (j < ncol S)%nat -> last (cst S j) = last (cst S0 j) /\
  (code (cst S j) = [] \/ code (cst S j) = [IShutdown] \/ exists r, okl r /\ code (cst S j) = [IGet r]) /\
  exists l, outs (cst S j) = l ++ outs (cst S0 j) /\ Forall (fun a => snd a = AZero) l.

Lemma okl_reading S : sys_reading okl S0 S -> Rd S.
Proof. induction 1 as [|S S' i r H IH Hr Hc|S S' i H IH Hc|S S' H IH Hm|S S' H IH Hm]; [constructor|refine (sr_get _ _ _ _ i r IH (proj1 Hr) Hc)|eapply sr_close; eauto|eapply sr_move; eauto|eapply sr_wake; eauto]. Qed.

Lemma untouched_step S S' : Rd S -> Rd S' -> ncol S' = ncol S -> (forall j, (j < ncol S)%nat -> moved cfg T nt S S' j) ->
  (forall j, (j < ncol S')%nat -> closed (cst S' j) = false) -> ((forall j, (j < ncol S)%nat -> closed (cst S j) = false) -> untouched S) -> untouched S'.
Proof.
  intros Hs Hs' Nc Mv Op IH.
  assert (Op0 : forall j, (j < ncol S)%nat -> closed (cst S j) = false).
  { intros j Hj. destruct (closed (cst S j)) eqn:Q; [|reflexivity]. exfalso. assert (Hj' : (j < ncol S')%nat) by (rewrite Nc; exact Hj). pose proof (Op j Hj') as Q'.
    destruct (Mv j Hj) as [E|Ss Nd|n' m' c Ha Hc Cl' Rz Cj Clj E]; [congruence| |congruence]. rewrite (step_closed _ _ Ss Q) in Q'. discriminate. }
  specialize (IH Op0). pose proof (rs_reading _ Hs) as U. intros j Hj. assert (Hj0 : (j < ncol S)%nat) by (rewrite <- Nc; exact Hj).
  destruct (IH j Hj0) as (L1 & C1 & l & O1 & O2). pose proof (Op j Hj) as Cl'.
  destruct (Mv j Hj0) as [E|Ss Nd|n' m' c Ha Hc Cl'' Rz Cj Clj E].
  - rewrite E. split; trivial. split; trivial. now exists l.
  - assert (Bd : nblk (cst S j) <= (K - 1) / n) by (rewrite (rs_nblk S j Hs U Hj0); apply last_absent; [exact Hs|intros q Hq; now apply IH]).
    pose proof (rs_q S j U Hj0) as Q. pose proof (q_rpb _ _ _ _ _ Q) as Er. pose proof Zn as Zn.
    destruct (step_early (cst S j) (cst S' j) ((K - 1) / n) n Ss Nd Zn Er Bd Cl') as (X1 & X2 & X3).
    { destruct C1 as [C1|[C1|(r & (_ & C2) & C1)]]; [now left|right; now left|right; right; now exists r]. }
    split; [now rewrite X1|]. split.
    + destruct X2 as [X2|X2]; [|now left]. rewrite X2. exact C1.
    + destruct X3 as [X3|(r & X3)]; [exists l; rewrite X3; now split|]. exists ((r, AZero) :: l). rewrite X3, O1. split; [reflexivity|]. constructor; trivial.
  - exfalso. eapply (rs_code S (active S)); eauto.
Qed.

Theorem last_block_zeros S : sys_reading okl S0 S -> (forall j, (j < ncol S)%nat -> closed (cst S j) = false) -> untouched S.
Proof.
  induction 1 as [|S S' i r H IH Hr Hc|S S' i H IH Hc|S S' H IH Hm|S S' H IH Hm]; intros Op.
  - intros j Hj. split; [reflexivity|]. split; [left; now apply Id0|]. exists []. split; [reflexivity|constructor].
  - destruct Hc as (Hi & R & Cd & Cl & Us & Oc & E & Em & Ea & Eo). assert (Nc : ncol S' = ncol S) by (unfold System.ncol; now rewrite Em).
    assert (Op0 : forall j, (j < ncol S)%nat -> closed (cst S j) = false) by (apply Oc; discriminate).
    intros j Hj. rewrite Nc in Hj. destruct (IH Op0 j Hj) as (L1 & C1 & O1). destruct (Nat.eq_dec j i) as [->|Nj].
    + rewrite E. split; [exact L1|]. split; [right; right; now exists r|exact O1].
    + rewrite (Eo j Nj). auto.
  - destruct Hc as (Hi & R & Cd & Cl & Us & Oc & E & Em & Ea & Eo). assert (Nc : ncol S' = ncol S) by (unfold System.ncol; now rewrite Em).
    assert (Op0 : forall j, (j < ncol S)%nat -> closed (cst S j) = false).
    { intros j Hj. destruct (Nat.eq_dec j i) as [->|Nj]; [exact Cl|]. rewrite <- (Eo j Nj). apply Op. rewrite Nc. exact Hj. }
    intros j Hj. rewrite Nc in Hj. destruct (IH Op0 j Hj) as (L1 & C1 & O1). destruct (Nat.eq_dec j i) as [->|Nj].
    + rewrite E. split; [exact L1|]. split; [right; now left|exact O1].
    + rewrite (Eo j Nj). auto.
  - assert (H' : sys_reading okl S0 S') by (eapply sr_move; eauto). pose proof (okl_reading _ H) as R1. pose proof (okl_reading _ H') as R2. pose proof (rs_reading _ R1) as U1. pose proof (rs_reading _ R2) as U2.
    apply (untouched_step S S' R1 R2 (move_columns cfg T nt S S' Hm)); trivial.
    apply (moves cfg T nt allA NT HA allA_32 (snew cfg T nt m0) S S'); trivial; [apply (Sm cfg T nt m0 (New' cfg m0 New))|now apply rs_si|now apply rs_si|apply (rs_run _ U2)].
  - assert (H' : sys_reading okl S0 S') by (eapply sr_wake; eauto). pose proof (okl_reading _ H) as R1. pose proof (okl_reading _ H') as R2.
    assert (Em : man S' = man S) by (destruct Hm; trivial). assert (Nc : ncol S' = ncol S) by (unfold System.ncol; now rewrite Em).
    apply (untouched_step S S' R1 R2 Nc); trivial. apply (wakes cfg T nt S S' Hm).
Qed.

Theorem last_block_answers_ S : sys_reading okl S0 S -> (forall j, (j < ncol S)%nat -> closed (cst S j) = false) ->
  forall j, (j < ncol S)%nat -> exists l, outs (cst S j) = l ++ outs (cst S0 j) /\ Forall (fun a => snd a = AZero) l.
Proof. intros H Op j Hj. exact (proj2 (proj2 (last_block_zeros S H Op j Hj))). Qed.
End same.


Theorem same_runs cfg T nt m0 D K L n na : writable cfg T nt m0 D K L n na ->
  forall ks S0 S, sys_order cfg T nt m0 D K ks S0 -> idle S0 -> (forall j, (j < ncol cfg T nt S0)%nat -> ks j = K /\ closed (cst cfg T nt S0 j) = false) ->
  sys_reading (fun r => r < K) S0 S -> running cfg T nt S /\ sfinishes S.
Proof. intros W ks S0 S Or Id All. exact (same_runs_ cfg T nt m0 D K L n na W ks S0 Or Id All S). Qed.

Theorem last_block_answers cfg T nt m0 D K L n na : writable cfg T nt m0 D K L n na ->
  forall ks S0 S, sys_order cfg T nt m0 D K ks S0 -> idle S0 -> (forall j, (j < ncol cfg T nt S0)%nat -> ks j = K /\ closed (cst cfg T nt S0 j) = false) ->
  sys_reading (fun r => r < K /\ r / n = (K - 1) / n) S0 S -> (forall j, (j < ncol cfg T nt S)%nat -> closed (cst cfg T nt S j) = false) ->
  forall j, (j < ncol cfg T nt S)%nat -> exists l, outs (cst cfg T nt S j) = l ++ outs (cst cfg T nt S0 j) /\ Forall (fun a => snd a = AZero) l.
Proof. intros W ks S0 S Or Id All. exact (last_block_answers_ cfg T nt m0 D K L n na W ks S0 Or Id All S). Qed.
