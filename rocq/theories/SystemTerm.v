(** Calls on a storage manager terminate. *)
From Coq Require Import Eqdep_dec.
From Verif Require Import Base BaseLemmas Floats TimeBlockBuffer TbbSpec BitStream BytePacker File FileProofs StMan StManSpec StManProofs.
From Verif Require Import StochasticEncoder TimeBlockEncoders TbeSpec Weights WeightSpec Block BlockSpec BlockProofs Column ColumnSpec ColumnProofs ColumnInv ColumnReach ColumnTerm ColumnData ColumnOrder ColumnWhole ColumnAmong
  StoredColumn StoredProofs System SystemSpec SystemLow SystemCols SystemInv SystemOrder.
From Coq Require Import ZifyNat ZifyN.
Local Open Scope N_scope.
Local Arguments System.colenv : simpl never.

Lemma sum_one (f g : nat -> nat) i l : NoDup l -> In i l -> (forall j, In j l -> j <> i -> g j = f j) -> (sum g l + f i = sum f l + g i)%nat.
Proof.
  induction l as [|a l IH]; intros Nd Hi He; [destruct Hi|]. rewrite !sum_cons. inversion Nd as [|? ? Na Nd']; subst. destruct Hi as [->|Hi].
  - assert (E : sum g l = sum f l).
    { clear - Na He. induction l as [|b l IH]; trivial. rewrite !sum_cons. rewrite (He b); [|right; now left|intros ->; apply Na; now left]. f_equal. apply IH.
      - intros H. apply Na. now right.
      - intros j [Hj|Hj]; [now apply He; left|]. apply He. right. now right. }
    lia.
  - assert (a <> i) by (intros ->; contradiction). rewrite (He a); [|now left|trivial]. specialize (IH Nd' Hi ltac:(intros j Hj; apply He; now right)). lia.
Qed.

Lemma setfile_phi {e} (s : state e) f n : phi (set_file s f n) = phi s /\ ready (set_file s f n) = ready s.
Proof. now split. Qed.

Section SystemTerm.
Context (cfg : nat -> coldef) (T : table) (nt A : nat).
Hypotheses (NT : nt <> 0%nat).
Notation sys := (sys cfg T nt).
Notation cst := (cst cfg T nt). Notation man := (man cfg T nt). Notation active := (active cfg T nt).
Notation ncol := (ncol cfg T nt). Notation running := (running cfg T nt). Notation colenv := (colenv cfg T nt).
Notation smove := (smove cfg T nt).

(** column [i] replaced by [s], the others changed by [f] *)
Definition change (S : sys) (i : nat) (s : state (colenv i)) (f : forall j, state (colenv j) -> state (colenv j)) : forall j, state (colenv j) :=
  fun j => match Nat.eq_dec i j with left E => eq_rect i (fun j => state (colenv j)) s j E | right _ => f j (cst S j) end.
Lemma change_same S i s f : change S i s f i = s.
Proof. unfold change. destruct (Nat.eq_dec i i) as [E|N]; [|now destruct N]. now rewrite (UIP_dec Nat.eq_dec E eq_refl). Qed.
Lemma change_other S i s f j : j <> i -> change S i s f j = f j (cst S j).
Proof. intros H. unfold change. destruct (Nat.eq_dec i j) as [E|N]; [now destruct H|reflexivity]. Qed.

Context (S0 : sys) (P : sys -> Prop) (St0 : sstart cfg T nt S0).
Hypotheses (P_si : forall S, P S -> SI cfg T nt A S0 S) (P_run : forall S, P S -> running S) (P_move : forall S S', P S -> smove S S' -> P S')
  (P_enc : forall S i, P S -> (i < ncol S)%nat -> can_encode (cst S i))
  (P_init : forall S i n m c, P S -> (i < ncol S)%nat -> i = active S -> code (cst S i) = ISetRpb n m :: c -> n <> 0).

Lemma init_zero S i n m c : P S -> (i < ncol S)%nat -> i = active S -> code (cst S i) = ISetRpb n m :: c -> rowsPerBlock (man S) = 0.
Proof.
  intros Ps Hi Ha Hc. pose proof (P_si _ Ps) as I. destruct (s_sync _ _ _ _ _ _ I i Hi) as (S1 & _). destruct (S1 Ha) as (S2 & _). rewrite <- S2.
  pose proof (si_inv cfg T nt A NT S0 S i St0 I (P_run _ Ps) Hi) as Iv. pose proof (i_phase _ _ Iv) as Ph. rewrite Hc in Ph.
  inversion Ph; try (match goal with H : maybe_store ?st ++ _ = _ |- _ => destruct st; discriminate end). trivial.
Qed.

(** ** There is a next step *)
Lemma step_of S i s' : P S -> (i < ncol S)%nat -> istep (cst S i) s' -> i <> active S \/ others_idle cfg T nt S i -> exists S', smove S S'.
Proof.
  intros Ps Hi Si Oi. pose proof (P_si _ Ps) as I. pose proof (P_run _ Ps) as R. destruct (nth_error (columns (man S)) i) as [col|] eqn:Hn.
  2:{ apply nth_error_None in Hn. unfold System.ncol in Hi. lia. }
  destruct (s_sync _ _ _ _ _ _ I i Hi) as (_ & Sy). inversion Si as [junk x c ? Ru Hc Mw E J|k w y s1 w1 Ru Hw Hy E]; subst.
  - destruct (plain x) eqn:Px.
    + rewrite exec_junk in E by trivial. exists (Sys cfg T nt (man S) (change S i s' (fun _ s => s)) (active S)).
      apply (ss_main cfg T nt _ _ i x c); cbn [System.man System.cst System.active]; trivial; [now rewrite change_same|]. split; trivial. cbn. intros j Hj. now apply change_other.
    + assert (Act : forall b, x = ILoad b -> i = active S).
      { intros b ->. destruct (Nat.eq_dec i (active S)) as [|N]; [trivial|exfalso]. destruct (Sy N) as [(_ & [Cd|[Cd|[Cd|Cd]]])|(m & Cd & _)]; rewrite Hc in Cd; discriminate. }
      destruct x; try discriminate.
      * specialize (Act _ eq_refl). destruct Oi as [Oi|Oi]; [contradiction|].
        exists (Sys cfg T nt (man S) (change S i (sys_load cfg T nt (man S) i col (repeat 0 (N.to_nat (co_blockSize col))) (set_code (cst S i) c) b) (fun _ s => s)) (active S)).
        apply (ss_load cfg T nt _ _ i b c col (repeat 0 (N.to_nat (co_blockSize col)))); cbn [System.man System.cst System.active]; trivial.
        -- unfold len. rewrite repeat_length. apply N2Nat.id.
        -- apply Forall_forall. intros v Hv. apply repeat_spec in Hv. subst v. reflexivity.
        -- apply change_same.
        -- split; trivial. cbn. intros j Hj. now apply change_other.
      * destruct (Nat.eq_dec i (active S)) as [Ha|Ha].
        -- destruct Oi as [Oi|Oi]; [contradiction|]. destruct (init_no_throw (man S) n (N.of_nat m) (init_zero S i n m c Ps Hi Ha Hc)) as (m' & Em).
           exists (Sys cfg T nt m' (change S i s' (fun _ s => set_code s (call_code (OtherInit n m)))) (active S)).
           apply (ss_init cfg T nt _ _ i n m c); cbn [System.man System.cst System.active]; trivial; [|intros j Hj; exact (change_other S i s' (fun _ s => set_code s (call_code (OtherInit n m))) j Hj)].
           rewrite change_same. cbn [exec] in *. exact E.
        -- exists (Sys cfg T nt (man S) (change S i s' (fun _ s => s)) (active S)).
           apply (ss_follow cfg T nt _ _ i n m c); cbn [System.man System.cst System.active]; trivial; [rewrite change_same; exact E|]. split; trivial. cbn. intros j Hj. now apply change_other.
  - set (m' := match w with WPicked b x => if encodable (colenv i) (rpb (cst S i)) (nant (cst S i)) x then writeCompressedData (man S) b col y else man S | _ => man S end).
    exists (Sys cfg T nt m' (change S i (set_worker s1 k w1) (fun _ s => set_file s (file s) (nBlocksInFile m'))) (active S)).
    apply (ss_worker cfg T nt _ _ i k w y s1 w1 col); cbn [System.man System.cst System.active]; trivial; [apply change_same|].
    intros j Hj. exact (change_other S i _ (fun _ s => set_file s (file s) (nBlocksInFile m')) j Hj).
Qed.

Lemma col_progress S i : P S -> (i < ncol S)%nat -> code (cst S i) <> [] -> exists s', istep (cst S i) s'.
Proof.
  intros Ps Hi Hc. pose proof (P_si _ Ps) as I. apply (progress_at (cst S0 i)); trivial; [now apply (start_starts cfg T nt)|now apply P_enc|exact (inhabits [])|now apply (s_reach _ _ _ _ _ _ I)|now apply P_run|].
  left. apply (l_mgr _ _ (s_low _ _ _ _ _ _ I i Hi)).
Qed.

Lemma idle_dec S : (exists j, (j < ncol S)%nat /\ j <> active S /\ code (cst S j) <> []) \/ (forall j, (j < ncol S)%nat -> j <> active S -> code (cst S j) = []).
Proof.
  assert (X : forall N, (exists j, (j < N)%nat /\ j <> active S /\ code (cst S j) <> []) \/ (forall j, (j < N)%nat -> j <> active S -> code (cst S j) = [])).
  { induction N as [|N IH]; [right; intros j Hj; lia|]. destruct IH as [(j & H1 & H2)|IH]; [left; exists j; split; [lia|trivial]|].
    destruct (Nat.eq_dec N (active S)) as [E|E]; [right; intros j Hj Ha; apply IH; trivial; lia|].
    destruct (code (cst S N)) eqn:Ec; [|left; exists N; repeat split; [lia|trivial|congruence]].
    right. intros j Hj Ha. destruct (Nat.eq_dec j N) as [->|]; trivial. apply IH; trivial. lia. }
  apply X.
Qed.

Lemma sys_progress S : P S -> idle S \/ exists S', smove S S'.
Proof.
  intros Ps. destruct (idle_dec S) as [(j & Hj & Ha & Hc)|H].
  - right. destruct (col_progress S j Ps Hj Hc) as (s' & Hs). eapply step_of; eauto.
  - destruct (le_lt_dec (ncol S) (active S)) as [L|L]; [left; intros j Hj; apply H; trivial; lia|].
    destruct (code (cst S (active S))) eqn:Ec.
    + left. intros j Hj. destruct (Nat.eq_dec j (active S)) as [->|]; auto.
    + right. destruct (col_progress S (active S) Ps L) as (s' & Hs); [congruence|]. eapply step_of; eauto.
Qed.

(** ** No endless runs *)
Definition known (S : sys) : nat := if rowsPerBlock (man S) =? 0 then 1 else 0.
Definition work (S : sys) : nat := sum (fun j => phi (cst S j)) (seq 0 (ncol S)).
Definition alive (S : sys) : nat := sum (fun j => ready (cst S j)) (seq 0 (ncol S)).
Definition less (S' S : sys) : Prop := (known S' < known S)%nat \/ (known S' = known S /\ ((work S' < work S)%nat \/ (work S' = work S /\ (alive S' < alive S)%nat))).

Lemma less_wf : well_founded less.
Proof.
  assert (X : forall a b c (S : sys), (known S <= a)%nat -> (work S <= b)%nat -> (alive S <= c)%nat -> Acc less S).
  { induction a as [a IHa] using lt_wf_ind. induction b as [b IHb] using lt_wf_ind. induction c as [c IHc] using lt_wf_ind. intros S H1 H2 H3. constructor. intros S' [H|(E1 & [H|(E2 & H)])].
    - apply (IHa (known S') ltac:(lia) (work S') (alive S')); lia.
    - apply (IHb (work S') ltac:(lia) (alive S')); lia.
    - apply (IHc (alive S') ltac:(lia)); lia. }
  intros S. now apply (X (known S) (work S) (alive S)).
Qed.

Lemma less_one S S' i : ncol S' = ncol S -> rowsPerBlock (man S') = rowsPerBlock (man S) -> (i < ncol S)%nat -> istep (cst S i) (cst S' i) ->
  (forall j, j <> i -> phi (cst S' j) = phi (cst S j) /\ ready (cst S' j) = ready (cst S j)) -> less S' S.
Proof.
  intros Nc Er Hi Si He. right. unfold known, work, alive. rewrite Er, Nc. split; trivial.
  assert (In i (seq 0 (ncol S))) by (apply in_seq; lia).
  pose proof (sum_one (fun j => phi (cst S j)) (fun j => phi (cst S' j)) i _ (seq_NoDup _ _) H (fun j _ Nj => proj1 (He j Nj))) as H1.
  pose proof (sum_one (fun j => ready (cst S j)) (fun j => ready (cst S' j)) i _ (seq_NoDup _ _) H (fun j _ Nj => proj2 (He j Nj))) as H2.
  cbn beta in H1, H2. destruct (istep_smaller _ _ Si) as [Q|(Q1 & Q2)]; lia.
Qed.

Lemma move_less S S' : P S -> smove S S' -> less S' S.
Proof.
  intros Ps Mv. pose proof (P_move _ _ Ps Mv) as Ps'. pose proof (P_si _ Ps) as I. pose proof (P_run _ Ps) as R. pose proof (P_run _ Ps') as R'. pose proof (move_columns _ _ _ _ _ Mv) as Nc.
  destruct Mv as [i x c Hi _ Hc Mw Pl Oi E Em On|i b c col old Hn _ Hc Mw Oi Lo Fo E Em On|i n m c Hi _ Hc Mw Ha Oi Ei E Ea Eo|
    i n m c Hi _ Hc Mw Ha Oi Ei E Em On|i n m c Hi _ Hc Mw Ha E Em On|i k w y s' w' col Hn _ Hw Ey E Es Em Ea Eo].
  - apply (less_one S S' i); trivial; [now rewrite Em| |].
    + apply step_main with (junk := None) (i := x) (c := c); trivial; [now apply R|exact Logic.I].
    + intros j Hj. now rewrite (proj2 On).
  - assert (Hi : (i < ncol S)%nat) by (unfold System.ncol; apply nth_error_Some; now rewrite Hn).
    apply (less_one S S' i); trivial; [now rewrite Em| |].
    + destruct (load_step cfg T nt A S0 S S' i b c col old I Hn E) as (junk & X & Jk); [apply R'; lia|]. apply step_main with (junk := junk) (i := ILoad b) (c := c); trivial. now apply R.
    + intros j Hj. now rewrite (proj2 On).
  - left. pose proof (init_zero S i n m c Ps Hi Ha Hc) as Z. pose proof (P_init S i n m c Ps Hi Ha Hc) as Zn. unfold known. rewrite Z. cbn [N.eqb].
    pose proof (s_low _ _ _ _ _ _ (P_si _ Ps) i Hi) as Lw. destruct (l_set _ _ Lw n m) as (L1 & L2); [rewrite Hc; now left|].
    revert Ei. unfold initializeRowsPerBlock. destruct (_ && _)%bool; [discriminate|]. destruct (place _ _ _ _) as (cs & t). intros [= <-]. cbn [rowsPerBlock writeHeader StMan.set_file set_hdrSize set_geometry].
    unfold u32. rewrite N.mod_small by trivial. apply N.eqb_neq in Zn. rewrite Zn. lia.
  - exfalso. destruct (init_no_throw (man S) n (N.of_nat m) (init_zero S i n m c Ps Hi Ha Hc)) as (m' & Em'). congruence.
  - apply (less_one S S' i); trivial; [now rewrite Em| |].
    + apply step_main with (junk := None) (i := ISetRpb n m) (c := c); trivial; [now apply R|exact Logic.I].
    + intros j Hj. now rewrite (proj2 On).
  - assert (Hi : (i < ncol S)%nat) by (unfold System.ncol; apply nth_error_Some; now rewrite Hn).
    apply (less_one S S' i); trivial.
    + rewrite Em. destruct w; trivial. destruct (encodable _ _ _ _); trivial. now destruct (write_settings (man S) b col y) as (-> & _).
    + rewrite Es. apply step_worker with (w := w) (y := y); trivial. now apply R.
    + intros j Hj. rewrite (Eo j Hj). apply setfile_phi.
Qed.

Theorem sys_finishes S : P S -> sfinishes S.
Proof.
  induction (less_wf S) as [S _ IH]. intros Ps. destruct (sys_progress S Ps) as [H|H]; [now apply sf_now|].
  apply sf_step; trivial. intros S' Mv. apply IH; [now apply move_less|now apply (P_move S)].
Qed.
End SystemTerm.
