(** No two threads of a storage manager are about to do conflicting things. *)
From Verif Require Import Base BaseLemmas Floats TimeBlockBuffer TbbSpec BytePacker File FileProofs StMan StManSpec StManProofs.
From Verif Require Import StochasticEncoder TimeBlockEncoders Block Column ColumnSpec ColumnProofs ColumnInv ColumnReach ColumnData StoredColumn System SystemSpec SystemLow SystemCols SystemInv SystemGood SystemFinal ColumnOrder SystemOrder Accesses RaceSpec.
From Coq Require Import ZifyNat ZifyN.
Local Open Scope N_scope.
Local Arguments System.colenv : simpl never.

(** * One column *)
Lemma put_faults {e} (t : state e) r row d : faults (put_buffer t r row d) = faults t.
Proof. unfold put_buffer. now destruct (SetData _ _ _ _ _ _). Qed.

(** What a column does about threads and the block size. *)
Definition unstarted {e} (s : state e) : Prop :=
  rpb s = 0 -> workers s = [] /\ (In IStart (code s) -> exists n m t, code s = ISetRpb n m :: t).
Definition late_threads {e} (s : state e) : Prop := In (FLong 0) (faults s) \/ unstarted s.

Lemma exec_faults {e} junk (s s' : state e) x c : exec junk s x c = Some s' -> incl (faults s) (faults s').
Proof.
  intros E f Hf. destruct x; cbn [exec] in E;
    repeat match type of E with
    | (if ?b then _ else _) = Some _ => destruct b
    | match ?b with _ => _ end = Some _ => destruct b
    | (let _ := _ in _) = Some _ => cbv zeta in E
    end; try discriminate; injection E as <-; rewrite ?put_faults; trivial; try (now sm; trivial).
  - unfold load. destruct (cached _ _); [|]; (match goal with |- context [if ?b then _ else _] => destruct b end;
      [match goal with |- context [match ?b with _ => _ end] => destruct b end; [|destruct junk]|]); cbn; auto.
  - match goal with |- context [if ?b then _ else _] => destruct b end; cbn; auto.
  - match goal with |- context [if ?b then _ else _] => destruct b end; cbn; auto.
  - destruct (rpb s =? 0); trivial.
Qed.

Lemma step_faults {e} (s s' : state e) : step s s' -> incl (faults s) (faults s').
Proof.
  intros [s1 H|a _ _ _ _|k _|_|n _ _ _]; try (intros f Hf; exact Hf). destruct H as [junk x c s2 _ _ _ E _|k w y s2 w' _ _ _ E].
  - now apply exec_faults in E.
  - intros f Hf. destruct w; cbn [wexec] in E; unfold pick in E; try destruct (isWriteItemAvailable (cache s)) as [(b & x)|];
      repeat match type of E with (if ?b then _ else _) = Some _ => destruct b end; try discriminate; injection E as <- <-; exact Hf.
Qed.

Lemma exec_unstarted {e} junk (s s' : state e) x c : code s = x :: c -> unstarted s -> exec junk s x c = Some s' -> late_threads s'.
Proof.
  intros Hc U E. unfold late_threads.
  assert (K : x <> IStart -> (forall n m, x <> ISetRpb n m) -> rpb s' = rpb s -> (workers s = [] -> workers s' = []) ->
    (rpb s = 0 -> In IStart (code s') -> (exists n m t, code s' = ISetRpb n m :: t) \/ In IStart c) -> unstarted s').
  { intros X1 X2 Er Ew Ec Z. rewrite Er in Z. destruct (U Z) as (U1 & U2). split; [now apply Ew|]. intros Hi. destruct (Ec Z Hi) as [Q|Q]; [exact Q|].
    exfalso. destruct U2 as (n & m & t & Eq); [rewrite Hc; now right|]. rewrite Hc in Eq. injection Eq as Eq _. now apply (X2 n m). }
  assert (Pb : forall (t : state e) r row d, rpb (put_buffer t r row d) = rpb t /\ workers (put_buffer t r row d) = workers t /\ code (put_buffer t r row d) = code t).
  { intros t r row d. unfold put_buffer. now destruct (SetData _ _ _ _ _ _). }
  assert (Ld : forall (t : state e) b, rpb (load junk t b) = rpb t /\ workers (load junk t b) = workers t /\ code (load junk t b) = code t).
  { intros t b. unfold load. destruct (cached _ _); (match goal with |- context [if ?b then _ else _] => destruct b end;
      [match goal with |- context [match ?b with _ => _ end] => destruct b end; [|destruct junk]|]); now cbn. }
  destruct x; cbn [exec] in E;
    try (right; apply K; [discriminate|discriminate| | |];
      repeat match type of E with
      | match ?b with _ => _ end = Some _ => destruct b eqn:?
      end; try discriminate; injection E as <-;
      rewrite ?(proj1 (Pb _ _ _ _)), ?(proj1 (proj2 (Pb _ _ _ _))), ?(proj2 (proj2 (Pb _ _ _ _))), ?(proj1 (Ld _ _)), ?(proj1 (proj2 (Ld _ _))), ?(proj2 (proj2 (Ld _ _))); sm; auto;
      try (intros _ Hi; right; try (rewrite Hc in Hi); repeat (destruct Hi as [Hi|Hi]; [discriminate|]); exact Hi);
      try (intros ->; reflexivity); try congruence;
      try (intros _ Hi; right; destruct (changed s); cbn [app In] in Hi; repeat (destruct Hi as [Hi|Hi]; [discriminate|]); exact Hi);
      try (destruct (changed s); now auto)).
  - intros _ _. left. eauto.
  - injection E as <-. destruct (N.eqb_spec n 0) as [->|Z].
    + left. rewrite andb_false_r. now left.
    + right. intros Z'. exfalso. apply Z. destruct (_ && _) in Z'; exact Z'.
  - injection E as <-. right. intros Z. sm. exfalso. destruct (U Z) as (_ & U2). destruct U2 as (n & m & t & Eq); [rewrite Hc; now left|]. rewrite Hc in Eq. discriminate.
  - destruct (rpb s =? 0); sm; auto.
  - destruct (rpb s =? 0); sm; auto.
  - intros Z. rewrite Z. sm. auto.
Qed.

Lemma late_step {e} (s s' : state e) : step s s' -> late_threads s -> late_threads s'.
Proof.
  intros St [F|U]; [left; now apply (step_faults _ _ St)|].
  assert (X : rpb s' = rpb s -> (workers s = [] -> workers s' = []) -> (In IStart (code s') -> code s' = code s) -> late_threads s').
  { intros Er Ew Ec. right. intros Z. rewrite Er in Z. destruct (U Z) as (U1 & U2). split; auto. intros Hi. pose proof (Ec Hi) as Q. rewrite Q in Hi |- *. exact (U2 Hi). }
  destruct St as [s1 H|a _ Hc _ _|k Hw|Mw|n _ _ _].
  - destruct H as [junk x c s2 _ Hc _ E _|k w y s2 w' _ Hw _ E]; [eapply exec_unstarted; eauto|].
    destruct w; cbn [wexec] in E; unfold pick in E; try destruct (isWriteItemAvailable (cache s)) as [(b & x)|];
      repeat match type of E with (if ?b then _ else _) = Some _ => destruct b end; try discriminate; injection E as <- <-;
      (apply X; [reflexivity| |reflexivity]); intros Z; rewrite Z in Hw; destruct k; discriminate.
  - destruct a as [| | | |n m]; try (apply X; trivial; sm; cbn; intros Hi; repeat (destruct Hi as [Hi|Hi]; [discriminate|]); now destruct Hi).
    right. intros Z. sm. destruct (U Z) as (U1 & _). split; trivial. intros _. exists n, m, [IStop; IStart]. reflexivity.
  - apply X; trivial. intros Z. rewrite Z in Hw. destruct k; discriminate.
  - now apply X.
  - now apply X.
Qed.

Lemma late_reach {e} (s0 s : state e) : starts s0 -> reach s0 s -> late_threads s.
Proof.
  intros St H. induction H as [|s s' H IH Hs]; [|eapply late_step; eauto]. right. destruct St as [|f nb rp na Hr Hn Hf]; intros Z.
  - now split.
  - contradiction.
Qed.

(** the calling thread only adds to the cache when it stores a block *)
Lemma exec_cache {e} junk (s s' : state e) x c : exec junk s x c = Some s' -> x <> IStore -> cache s = [] -> cache s' = [].
Proof.
  intros E N Z. assert (Pb : forall (t : state e) r row d, cache (put_buffer t r row d) = cache t).
  { intros t r row d. unfold put_buffer. now destruct (SetData _ _ _ _ _ _). }
  destruct x; cbn [exec] in E; try contradiction;
      repeat match type of E with
      | match ?b with _ => _ end = Some _ => destruct b eqn:?
      end; try discriminate; injection E as <-; rewrite ?Pb; sm; trivial.
  all: try (unfold load; destruct (cached _ _); (match goal with |- context [if ?b then _ else _] => destruct b end;
      [match goal with |- context [match ?b with _ => _ end] => destruct b end; [|destruct junk]|]); now cbn).
  all: try (destruct (_ && _); exact Z); try (destruct (changed s); exact Z); destruct (rpb s =? 0); exact Z.
Qed.

Lemma wexec_cache {e} y (s s' : state e) w w' : wexec y s w = Some (s', w') -> cache s = [] -> cache s' = [].
Proof.
  intros E Z. destruct w; cbn [wexec] in E; unfold pick in E; rewrite ?Z in E; cbn [isWriteItemAvailable] in E;
      repeat match type of E with (if ?b then _ else _) = Some _ => destruct b end; try discriminate; injection E as <- <-; sm; trivial.
Qed.

Lemma wexec_code {e} y (s s' : state e) w w' : wexec y s w = Some (s', w') -> code s' = code s.
Proof.
  intros E. destruct w; cbn [wexec] in E; unfold pick in E; try destruct (isWriteItemAvailable (cache s)) as [(b & x)|];
      repeat match type of E with (if ?b then _ else _) = Some _ => destruct b end; try discriminate; injection E as <- <-; reflexivity.
Qed.

(** the threads are started when there are none *)
Lemma start_none {e} f0 (s : state e) c : inv f0 s -> code s = IStart :: c -> workers s = [].
Proof.
  intros I Hc. pose proof (i_phase _ _ I) as P. rewrite Hc in P.
  inversion P; subst; trivial; try (match goal with H : maybe_store ?st ++ _ = _ |- _ => destruct st; discriminate end).
Qed.

Lemma set_none {e} f0 (s : state e) n m c : inv f0 s -> code s = ISetRpb n m :: c -> rpb s = 0 /\ In IStart c.
Proof.
  intros I Hc. pose proof (i_phase _ _ I) as P. rewrite Hc in P.
  inversion P; subst; try (match goal with H : maybe_store ?st ++ _ = _ |- _ => destruct st; discriminate end). split; trivial. right. now left.
Qed.

Lemma store_no_start {e} f0 (s : state e) c : inv f0 s -> code s = IStore :: c -> ~ In IStart c.
Proof.
  intros I Hc Hi. pose proof (i_phase _ _ I) as P. rewrite Hc in P.
  inversion P; subst; try (match goal with H : maybe_store ?st ++ _ = _ |- _ => destruct st; try discriminate H; injection H as <- end);
    repeat (destruct Hi as [Hi|Hi]; [discriminate|]); destruct Hi.
Qed.

Lemma idle_none {e} f0 (s : state e) : inv f0 s -> code s = [] -> rpb s = 0 -> cache s = [].
Proof.
  intros I Hc Z. pose proof (i_phase _ _ I) as P. rewrite Hc in P.
  remember [] as l eqn:El in P. destruct P as [B| | | |st| | | |st| | | | | | | | | | | | | | | | | |]; try discriminate El; try (destruct st; discriminate El); trivial. now apply B.
Qed.

(** no encoding thread has an item when there is none *)
Lemma empty_free {e} f0 (s : state e) k w : inv f0 s -> cache s = [] -> nth_error (workers s) k = Some w -> busy1 w = [].
Proof.
  intros I Z Hw. destruct (busy1 w) as [|b l] eqn:E; trivial. exfalso.
  assert (Hb : In b (busy (workers s))).
  { apply nth_error_In in Hw. apply busy_In. destruct w as [| | |b' x|b'|]; try discriminate E; injection E as -> _; [left; eauto|now right]. }
  apply (i_busy _ _ I) in Hb. destruct Hb as (x & Hx). rewrite Z in Hx. destruct Hx.
Qed.

(** two encoding threads do not have the same item *)
Lemma busy_apart {A} (ws : list (wpc A)) k k' w w' b : NoDup (busy ws) -> nth_error ws k = Some w -> nth_error ws k' = Some w' ->
  In b (busy1 w) -> In b (busy1 w') -> k = k'.
Proof.
  revert k k'. induction ws as [|v ws IH]; intros k k' N H H' B B'; [destruct k; discriminate|]. rewrite busy_cons in N.
  assert (X : forall j u, nth_error ws j = Some u -> In b (busy1 u) -> In b (busy ws)).
  { intros j u Hu Hb. apply nth_error_In in Hu. apply busy_In. destruct u as [| | |b' x|b'|]; try (now destruct Hb); destruct Hb as [->|[]]; [left; eauto|now right]. }
  assert (Y : In b (busy1 v) -> In b (busy ws) -> False).
  { intros H1 H2. apply in_split in H1 as (l1 & l2 & E). rewrite E in N. rewrite <- app_assoc in N. cbn in N. apply NoDup_remove_2 in N. apply N. apply in_or_app. right. apply in_or_app. now right. }
  destruct k as [|k], k' as [|k']; cbn in H, H'; trivial.
  - injection H as ->. exfalso. eauto.
  - injection H' as ->. exfalso. eauto.
  - f_equal. eapply IH; eauto. clear - N. induction (busy1 v) as [|z l IHl]; trivial. inversion N. auto.
Qed.

Lemma exec_start {e} junk (s s' : state e) x c : exec junk s x c = Some s' -> code s = x :: c -> In IStart (code s') ->
  In IStart (code s) \/ (exists row d, x = IPut row d) /\ rpb s = 0 \/ x = IPrepared.
Proof.
  intros E Hc Hi. rewrite Hc. assert (Pb : forall (t : state e) r row d, code (put_buffer t r row d) = code t).
  { intros t r row d. unfold put_buffer. now destruct (SetData _ _ _ _ _ _). }
  assert (Ld : forall (t : state e) b, code (load junk t b) = code t).
  { intros t b. unfold load. destruct (cached _ _); (match goal with |- context [if ?b then _ else _] => destruct b end;
      [match goal with |- context [match ?b with _ => _ end] => destruct b end; [|destruct junk]|]); reflexivity. }
  destruct x; cbn [exec] in E;
      repeat match type of E with
      | match ?b with _ => _ end = Some _ => destruct b eqn:?
      end; try discriminate; injection E as <-; rewrite ?Pb, ?Ld in Hi; revert Hi; sm; intros Hi; rewrite ?Hc in Hi;
      try (left; right; exact Hi); try (left; exact Hi); try (now right; right);
      try (right; left; split; [eauto|now apply N.eqb_eq]);
      try (left; right; repeat (destruct Hi as [Hi|Hi]; [discriminate|]); exact Hi);
      try (left; right; destruct (_ && _); exact Hi);
      try (left; right; destruct (changed s); cbn [app In] in Hi; repeat (destruct Hi as [Hi|Hi]; [discriminate|]); exact Hi).
Qed.

(** * The accesses *)
Lemma conflict_sym a b : conflict a b -> conflict b a.
Proof. intros (H1 & H2 & H3). split; [auto|]. split; [tauto|]. intros m Hb Ha. exact (H3 m Ha Hb). Qed.

Definition shared_loc (l : loc) : Prop := match l with LReader _ | LThreads _ | LCurrent _ | LBuffer _ => False | _ => True end.

Inductive main_class {A} (i : nat) (f : bool) (x : instr A) (a : access) : Prop :=
| mc_read : a_write a = false -> a_loc a = LRows \/ a_loc a = LShape i -> main_class i f x a
| mc_col : In (MCol i) (a_locks a) -> a_loc a = LCache i \/ a_loc a = LStop i -> main_class i f x a
| mc_man : In MMan (a_locks a) -> a_loc a = LBlocks \/ a_loc a = LSize \/ a_loc a = LOffset i \/ a_loc a = LStream -> main_class i f x a
| mc_start : x = IStart -> a_loc a = LShape i \/ a_loc a = LStop i -> main_class i f x a
| mc_reset : x = IReset -> main_class i f x a
| mc_rows n m : x = ISetRpb n m -> f = true -> a_loc a = LRows -> main_class i f x a
| mc_size n m : x = ISetRpb n m -> a_loc a = LSize \/ a_loc a = LOffset i -> main_class i f x a.

Lemma main_classes {A} i f (x : instr A) a : In a (main_acc i f x) -> shared_loc (a_loc a) -> main_class i f x a.
Proof.
  intros H Sh. destruct x; cbn in H; repeat (destruct H as [<-|H] || (destruct f; cbn in H)); try contradiction; cbn in Sh; try contradiction.
  all: try (apply mc_read; cbn; now auto). all: try (apply mc_col; cbn; now auto). all: try (apply mc_man; cbn; now auto 6).
  all: try (apply mc_start; cbn; now auto). all: try (now apply mc_reset). all: try (eapply mc_rows; now cbn). all: eapply mc_size; cbn; now auto.
Qed.

Inductive worker_class {A} (i : nat) (w : wpc A) (b : access) : Prop :=
| wc_read : a_write b = false -> a_loc b = LRows \/ a_loc b = LShape i -> worker_class i w b
| wc_col : In (MCol i) (a_locks b) -> a_loc b = LRandom i \/ a_loc b = LCache i \/ a_loc b = LStop i -> worker_class i w b
| wc_man n x : In MMan (a_locks b) -> w = WPicked n x -> a_loc b = LBlocks \/ a_loc b = LSize \/ a_loc b = LOffset i \/ a_loc b = LStream -> worker_class i w b
| wc_item n : busy1 w = [n] -> a_loc b = LItem i n -> worker_class i w b.

Lemma worker_classes {A} i (w : wpc A) b : In b (worker_acc i w) -> worker_class i w b.
Proof.
  intros H. destruct w; cbn in H; repeat destruct H as [<-|H]; try contradiction.
  all: try (apply wc_read; cbn; now auto). all: try (apply wc_col; cbn; now auto). all: try (eapply wc_man; cbn; now eauto 6). all: eapply wc_item; cbn; reflexivity.
Qed.

Lemma worker_shared {A} i (w : wpc A) b : In b (worker_acc i w) -> shared_loc (a_loc b).
Proof. intros H. destruct (worker_classes _ _ _ H) as [_ [E|E]|_ [E|[E|E]]|n x _ _ [E|[E|[E|E]]]|n _ E]; now rewrite E. Qed.

Lemma not_prepared {e} f0 (s : state e) c : inv f0 s -> low allA s -> code s = IPrepared :: c \/ code s = IReset :: c -> False.
Proof.
  intros I L Hc. pose proof (i_phase _ _ I) as P. pose proof (l_mgr _ _ L) as M.
  destruct Hc as [Hc|Hc]; rewrite Hc in P; inversion P; subst; try congruence; match goal with H : maybe_store ?st ++ _ = _ |- _ => destruct st; discriminate end.
Qed.

Lemma longer {A} (x : A) l : x :: l = l -> False.
Proof. intros E. apply (f_equal (@length A)) in E. cbn in E. lia. Qed.

Lemma exec_store {e} junk (s s' : state e) c : exec junk s IStore c = Some s' -> code s = IStore :: c -> code s' = code s -> cache s' = cache s.
Proof.
  cbn [exec]. destruct (_ || _); intros E Hc Q; injection E as <-; [reflexivity|]. exfalso. revert Q. rewrite Hc. unfold notify. cbn. intros Q. symmetry in Q. exact (longer _ _ Q).
Qed.

(** * The system *)
Section races.
Context (cfg : nat -> coldef) (T : table) (nt : nat).
Hypotheses (NT : nt <> 0%nat) (HA : ants32 T).
Notation sys := (sys cfg T nt).
Notation cst := (cst cfg T nt). Notation man := (man cfg T nt). Notation active := (active cfg T nt).
Notation ncol := (ncol cfg T nt). Notation running := (running cfg T nt). Notation colenv := (colenv cfg T nt).
Notation SI := (SI cfg T nt allA).

Definition no_items (S : sys) : Prop := forall j, (j < ncol S)%nat -> cache (cst S j) = [].
(** nothing is stored until all columns have started their threads *)
Definition starting_empty (S : sys) : Prop := (exists j, (j < ncol S)%nat /\ In IStart (code (cst S j))) -> no_items S.

Lemma si_ncol S0 S S' : SI S0 S -> SI S0 S' -> ncol S' = ncol S.
Proof. intros I I'. unfold System.ncol. now rewrite (shape_length _ _ (s_shape _ _ _ _ _ _ I)), (shape_length _ _ (s_shape _ _ _ _ _ _ I')). Qed.

Lemma all_unset S0 S i : SI S0 S -> (i < ncol S)%nat -> i = active S -> rpb (cst S i) = 0 -> forall j, (j < ncol S)%nat -> rpb (cst S j) = 0.
Proof.
  intros I Hi Ea Z j Hj. destruct (s_sync _ _ _ _ _ _ I i Hi) as (Y & _). destruct (Y Ea) as (Y1 & _). rewrite Z in Y1.
  destruct (s_sync _ _ _ _ _ _ I j Hj) as (X1 & X2). destruct (Nat.eq_dec j (active S)) as [E|N].
  - destruct (X1 E) as (Q & _). congruence.
  - destruct (X2 N) as [((Q & _) & _)|(m & _ & _ & Q)]; congruence.
Qed.

Lemma starting_main S0 S S' i x c : sstart cfg T nt S0 -> SI S0 S -> SI S0 S' -> running S -> (i < ncol S)%nat -> code (cst S i) = x :: c ->
  i <> active S \/ others_idle cfg T nt S i -> exec None (cst S i) x c = Some (cst S' i) -> only cfg T nt S S' i -> starting_empty S -> starting_empty S'.
Proof.
  intros St I I' R Hi Hc Ho E (_ & On) J (j & Hj & Hs). pose proof (si_ncol _ _ _ I I') as Nc. rewrite Nc in Hj.
  assert (Iv : forall k, (k < ncol S)%nat -> inv (file (cst S0 k)) (cst S k)) by (intros k Hk; now apply (si_inv cfg T nt allA NT S0 S)).
  assert (Ng : i <> active S -> x = IStop \/ x = IJoin \/ x = IStart \/ exists n m, x = ISetRpb n m).
  { intros N. destruct (s_sync _ _ _ _ _ _ I i Hi) as (_ & Y). destruct (Y N) as [(_ & [Q|[Q|[Q|Q]]])|(m & Q & _)]; rewrite Hc in Q; try discriminate Q; injection Q as -> _; eauto 6. }
  assert (Fin : no_items S -> x <> IStore -> no_items S').
  { intros H N k Hk. rewrite Nc in Hk. destruct (Nat.eq_dec k i) as [->|Nk]; [eapply exec_cache; eauto|rewrite On; auto]. }
  destruct (Nat.eq_dec j i) as [->|Nj].
  - destruct (exec_start _ _ _ _ _ E Hc Hs) as [Hs'|[((row & d & ->) & Z)| ->]].
    + apply Fin; [apply J; eauto|]. intros ->. rewrite Hc in Hs'. destruct Hs' as [Hs'|Hs']; [discriminate|]. exact (store_no_start _ _ _ (Iv i Hi) Hc Hs').
    + apply Fin; [|discriminate]. destruct (Nat.eq_dec i (active S)) as [Ea|N]; [|exfalso; destruct (Ng N) as [Q|[Q|[Q|(n & m & Q)]]]; discriminate].
      destruct Ho as [Ho|Ho]; [contradiction|]. intros k Hk. destruct (Nat.eq_dec k i) as [->|Nk].
      * pose proof (i_phase _ _ (Iv i Hi)) as P. rewrite Hc in P. inversion P; subst; try (match goal with H : maybe_store ?st ++ _ = _ |- _ => destruct st; discriminate end).
        match goal with B : base _ |- _ => now apply B end.
      * apply (idle_none _ _ (Iv k Hk)); [now apply Ho|]. now apply (all_unset S0 S i).
    + exfalso. apply (not_prepared _ _ c (Iv i Hi) (s_low _ _ _ _ _ _ I i Hi)). now left.
  - rewrite On in Hs by trivial. apply Fin; [apply J; eauto|]. intros ->. destruct (Nat.eq_dec i (active S)) as [Ea|N].
    + destruct Ho as [Ho|Ho]; [contradiction|]. rewrite Ho in Hs by auto. destruct Hs.
    + destruct (Ng N) as [Q|[Q|[Q|(n & m & Q)]]]; discriminate.
Qed.

Lemma load_keeps m i col old (s : state (colenv i)) b : code (sys_load cfg T nt m i col old s b) = code s /\ cache (sys_load cfg T nt m i col old s b) = cache s.
Proof.
  unfold sys_load. destruct (cached _ _); (match goal with |- context [if ?b then _ else _] => destruct b end; [|now split]);
    (destruct (readCompressedData _ _ _ _) as [r| |]; [|now split|now split]); destruct (loadBlock _ _ _ _ _ _ _); now split.
Qed.

Lemma starting_move S0 S S' : sstart cfg T nt S0 -> SI S0 S -> SI S0 S' -> smove cfg T nt S S' -> running S' -> starting_empty S -> starting_empty S'.
Proof.
  intros St I I' H R' J. pose proof (si_ncol _ _ _ I I') as Nc.
  assert (Iv : running S -> forall k, (k < ncol S)%nat -> inv (file (cst S0 k)) (cst S k)) by (intros R k Hk; now apply (si_inv cfg T nt allA NT S0 S)).
  destruct H as [i x c Hi R Hc _ _ Ho E _ On|i b c col old Hcol R Hc _ Ho _ _ E _ On|i n m c Hi R Hc _ _ _ _ E _ On|i n m c Hi _ _ _ _ _ _ E _ _
    |i n m c Hi R Hc _ N E _ On|i k w y s' w' col Hcol R Hw _ E E' _ _ On].
  - exact (starting_main S0 S S' i x c St I I' R Hi Hc Ho E On J).
  - assert (Hi : (i < ncol S)%nat) by (apply nth_error_Some; congruence). destruct On as (_ & On).
    intros (j & Hj & Hs). rewrite Nc in Hj. assert (X : no_items S).
    { apply J. destruct (Nat.eq_dec j i) as [->|Nj].
      - exists i. split; trivial. rewrite Hc. rewrite E, (proj1 (load_keeps _ _ _ _ _ _)) in Hs. right. exact Hs.
      - exists j. split; trivial. now rewrite <- On. }
    intros k Hk. rewrite Nc in Hk. destruct (Nat.eq_dec k i) as [->|Nk]; [|rewrite On; auto]. rewrite E, (proj2 (load_keeps _ _ _ _ _ _)). sm. auto.
  - intros _. assert (X : no_items S).
    { apply J. exists i. split; trivial. rewrite Hc. right. apply (set_none _ _ _ _ _ (Iv R i Hi) Hc). }
    intros k Hk. rewrite Nc in Hk. destruct (Nat.eq_dec k i) as [->|Nk]; [eapply exec_cache; eauto; discriminate|]. rewrite On by trivial. sm. auto.
  - exfalso. assert (Hi' : (i < ncol S')%nat) by now rewrite Nc. specialize (R' i Hi'). rewrite E in R'. discriminate.
  - exact (starting_main S0 S S' i _ c St I I' R Hi Hc (or_introl N) E On J).
  - assert (Hi : (i < ncol S)%nat) by (apply nth_error_Some; congruence). intros (j & Hj & Hs). rewrite Nc in Hj. assert (X : no_items S).
    { apply J. exists j. split; trivial. destruct (Nat.eq_dec j i) as [->|Nj].
      - rewrite <- (wexec_code _ _ _ _ _ E). rewrite E' in Hs. exact Hs.
      - rewrite On in Hs by trivial. exact Hs. }
    intros l Hl. rewrite Nc in Hl. destruct (Nat.eq_dec l i) as [->|Nl].
    + rewrite E'. exact (wexec_cache _ _ _ _ _ E (X i Hi)).
    + rewrite On by trivial. sm. auto.
Qed.

Lemma starting_reach S0 S : sstart cfg T nt S0 -> sreach cfg T nt S0 S -> running S -> fits32 (man S) -> starting_empty S.
Proof.
  intros St H R Ft. assert (X : small32 (man S) /\ (running S -> fits32 (man S) -> starting_empty S)); [|now apply X]. clear R Ft.
  induction H as [|S S' H IH Hs].
  - split; [now apply (start_small cfg T nt)|]. intros _ _ (j & _ & Hj). exfalso. pose proof (start_starts cfg T nt S0 St j) as Q.
    assert (Z : code (cst S0 j) = []) by (destruct Q; reflexivity). rewrite Z in Hj. destruct Hj.
  - destruct IH as (Sm & IH). destruct (sstep_fits cfg T nt _ _ Hs Sm) as (Sm' & Ft). split; trivial. intros R' Ft'.
    pose proof (sstep_running cfg T nt _ _ Hs R') as R. specialize (IH R (Ft Ft')).
    pose proof (final_si cfg T nt NT HA S0 S St H R (Ft Ft')) as I.
    pose proof (final_si cfg T nt NT HA S0 S' St (sreach_step _ _ _ _ _ _ H Hs) R' Ft') as I'. pose proof (si_ncol _ _ _ I I') as Nc.
    destruct Hs as [Hs|i a Hs|Hs].
    + exact (starting_move S0 S S' St I I' Hs R' IH).
    + intros (j & Hj & Hi). exfalso. destruct Hs as (_ & _ & Id & _ & Us & _ & Ei & _ & _ & On). rewrite Nc in Hj. destruct (Nat.eq_dec j i) as [->|Nj].
      * rewrite Ei in Hi. revert Hi. sm. destruct a; cbn in *; try contradiction; intros [Q|[]]; discriminate.
      * rewrite On, Id in Hi by trivial. destruct Hi.
    + intros (j & Hj & Hi). rewrite Nc in Hj.
      assert (Sa : forall k, code (cst S' k) = code (cst S k) /\ cache (cst S' k) = cache (cst S k)).
      { intros k. destruct Hs as [i l _ _ E _ (_ & On)|i _ _ E _ (_ & On)]; (destruct (Nat.eq_dec k i) as [->|N]; [rewrite E; now split|rewrite On by trivial; now split]). }
      intros k Hk. rewrite (proj2 (Sa k)). rewrite Nc in Hk. apply IH; trivial. exists j. split; trivial. now rewrite <- (proj1 (Sa j)).
Qed.

(** an encoding thread that writes has an item *)
Lemma no_writer S0 S j k w n x : sstart cfg T nt S0 -> SI S0 S -> running S -> (j < ncol S)%nat -> no_items S -> nth_error (workers (cst S j)) k = Some w -> w <> WPicked n x.
Proof.
  intros St I R Hj X Hw ->. pose proof (si_inv cfg T nt allA NT S0 S j St I R Hj) as Iv. now apply (empty_free _ _ _ _ Iv (X j Hj)) in Hw.
Qed.

Lemma caller_encoder S0 S i x c j k w a b : sstart cfg T nt S0 -> sreach cfg T nt S0 S -> running S -> fits32 (man S) -> no_empty_block S ->
  (i < ncol S)%nat -> code (cst S i) = x :: c -> In a (main_acc i (i =? active S)%nat x) ->
  (j < ncol S)%nat -> nth_error (workers (cst S j)) k = Some w -> In b (worker_acc j w) -> ~ conflict a b.
Proof.
  intros St H R Ft Ne Hi Hc Ha Hj Hw Hb (E1 & E2 & E3).
  pose proof (final_si cfg T nt NT HA S0 S St H R Ft) as I. pose proof (starting_reach S0 S St H R Ft) as J.
  pose proof (si_inv cfg T nt allA NT S0 S i St I R Hi) as Iv.
  assert (Sh : shared_loc (a_loc a)) by (rewrite E1; eapply worker_shared; eauto).
  apply main_classes in Ha; trivial. apply worker_classes in Hb.
  assert (Pr : forall (u v : mutex), In u (a_locks a) -> In v (a_locks b) -> u <> v) by (intros u v Hu Hv ->; exact (E3 v Hu Hv)).
  destruct Ha as [Wa La|Ma La|Ma La| -> La| ->|n m -> Fa La|n m -> La].
  - destruct Hb as [Wb _|_ Lb|n z _ _ Lb|n _ Lb]; [destruct E2; congruence| | |];
      repeat match goal with H : _ \/ _ |- _ => destruct H as [H|H] end; congruence.
  - destruct Hb as [_ Lb|Mb Lb|n z _ _ Lb|n _ Lb].
    2: { apply (Pr _ _ Ma Mb). destruct La as [La|La], Lb as [Lb|[Lb|Lb]]; congruence. }
    all: repeat match goal with H : _ \/ _ |- _ => destruct H as [H|H] end; congruence.
  - destruct Hb as [_ Lb|Mb Lb|n z Mb _ Lb|n _ Lb].
    3: now apply (Pr _ _ Ma Mb).
    all: clear E2; repeat match goal with H : _ \/ _ |- _ => destruct H as [H|H] end; congruence.
  - pose proof (start_none _ _ _ Iv Hc) as Z. assert (j = i) as ->.
    { clear E2. destruct Hb as [_ Lb|_ Lb|n z _ _ Lb|n _ Lb]; repeat match goal with H : _ \/ _ |- _ => destruct H as [H|H] end; congruence. }
    rewrite Z in Hw. destruct k; discriminate.
  - apply (not_prepared _ _ c Iv (s_low _ _ _ _ _ _ I i Hi)). now right.
  - apply Nat.eqb_eq in Fa. destruct (set_none _ _ _ _ _ Iv Hc) as (Z & _).
    pose proof (all_unset S0 S i I Hi Fa Z j Hj) as Zj. destruct (late_reach _ _ (start_starts cfg T nt S0 St j) (s_reach _ _ _ _ _ _ I j Hj)) as [F|U]; [exact (Ne j Hj F)|].
    destruct (U Zj) as (U1 & _). rewrite U1 in Hw. destruct k; discriminate.
  - destruct (set_none _ _ _ _ _ Iv Hc) as (_ & Hs). assert (X : no_items S) by (apply J; exists i; split; trivial; rewrite Hc; now right).
    destruct Hb as [_ Lb|_ Lb|n' z _ Ew Lb|n' _ Lb].
    3: exact (no_writer S0 S j k w n' z St I R Hj X Hw Ew).
    all: clear E2; repeat match goal with H : _ \/ _ |- _ => destruct H as [H|H] end; congruence.
Qed.

Lemma encoder_encoder S0 S i k w j l v a b : sstart cfg T nt S0 -> sreach cfg T nt S0 S -> running S -> fits32 (man S) ->
  (i < ncol S)%nat -> nth_error (workers (cst S i)) k = Some w -> In a (worker_acc i w) ->
  (j < ncol S)%nat -> nth_error (workers (cst S j)) l = Some v -> In b (worker_acc j v) -> conflict a b -> i = j /\ k = l.
Proof.
  intros St H R Ft Hi Hw Ha Hj Hv Hb (E1 & E2 & E3).
  pose proof (final_si cfg T nt NT HA S0 S St H R Ft) as I. pose proof (si_inv cfg T nt allA NT S0 S i St I R Hi) as Iv.
  assert (Pr : forall (u v : mutex), In u (a_locks a) -> In v (a_locks b) -> u <> v) by (intros u u' Hu Hu' ->; exact (E3 u' Hu Hu')).
  apply worker_classes in Ha, Hb.
  destruct Ha as [Wa La|Ma La|n z Ma _ La|n Bw La], Hb as [Wb Lb|Mb Lb|n' z' Mb _ Lb|n' Bv Lb].
  1: exfalso; destruct E2; congruence.
  5: exfalso; apply (Pr _ _ Ma Mb); clear E2; repeat match goal with H : _ \/ _ |- _ => destruct H as [H|H] end; congruence.
  9: exfalso; now apply (Pr _ _ Ma Mb).
  13: { rewrite La, Lb in E1. injection E1 as <- <-. split; trivial. apply (busy_apart _ _ _ _ _ n (i_busy1 _ _ Iv) Hw Hv); [rewrite Bw|rewrite Bv]; now left. }
  all: exfalso; clear E2; repeat match goal with H : _ \/ _ |- _ => destruct H as [H|H] end; congruence.
Qed.

Theorem no_race S0 S : sstart cfg T nt S0 -> sreach cfg T nt S0 S -> running S -> fits32 (man S) -> no_empty_block S -> ~ data_race S.
Proof.
  intros St H R Ft Ne (t & t' & a & b & Nt & Pa & Pb & Cf).
  destruct Pa as [i x c a Hi Hc Ha|i k w a Hi Hw Ha], Pb as [j y d b Hj Hd Hb|j l v b Hj Hv Hb].
  - now apply Nt.
  - exact (caller_encoder S0 S i x c j l v a b St H R Ft Ne Hi Hc Ha Hj Hv Hb Cf).
  - exact (caller_encoder S0 S j y d i k w b a St H R Ft Ne Hj Hd Hb Hi Hw Ha (conflict_sym _ _ Cf)).
  - destruct (encoder_encoder S0 S i k w j l v a b St H R Ft Hi Hw Ha Hj Hv Hb Cf) as (-> & ->). now apply Nt.
Qed.

(** ** After threads were started *)
Lemma small_reach S0 S : sstart cfg T nt S0 -> sreach cfg T nt S0 S -> small32 (man S).
Proof. intros St H. induction H as [|S S' H IH Hs]; [now apply (start_small cfg T nt)|]. now apply (sstep_fits cfg T nt _ _ Hs). Qed.

Lemma go_reach S S' : encoders_go S S' -> forall S0, sreach cfg T nt S0 S -> sreach cfg T nt S0 S'.
Proof. induction 1 as [|S1 S2 H IH [Hs|Hs] _]; intros S0 H0; trivial; (eapply sreach_step; [now apply IH|]); [now apply ss_move|now apply ss_wake]. Qed.

Lemma go_items S S' : encoders_go S S' -> no_items S -> ncol S' = ncol S /\ no_items S'.
Proof.
  induction 1 as [|S1 S2 _ IH Hs Sc]; intros X; [now split|]. destruct (IH X) as (Nc1 & X1). clear X IH.
  assert (Nc : ncol S2 = ncol S1) by (destruct Hs as [Hs|[? ? ? ? ? Em|? ? ? ? Em]]; [now apply (move_columns cfg T nt)|unfold System.ncol; now rewrite Em..]).
  split; [congruence|]. unfold no_items. rewrite Nc. pose proof X1 as IH. unfold no_items in IH. destruct Hs as [Hs|Hs].
  - destruct Hs as [i x c Hi R Hc _ _ Ho E _ (_ & On)|i b c col old Hcol R Hc _ Ho _ _ E _ (_ & On)|i n m c Hi R Hc _ _ _ _ E _ On|i n m c Hi _ Hc _ _ _ _ E _ (_ & On)
      |i n m c Hi R Hc _ N E _ (_ & On)|i k w y s' w' col Hcol R Hw _ E E' _ _ On]; intros j Hj; (destruct (Nat.eq_dec j i) as [->|Nj]; [|]).
    + assert (D : x = IStore \/ x <> IStore) by (destruct x; auto; right; discriminate). destruct D as [->|D]; [|eapply exec_cache; eauto].
      rewrite (exec_store _ _ _ _ E Hc (Sc i)). auto.
    + rewrite On by trivial. auto.
    + rewrite E, (proj2 (load_keeps _ _ _ _ _ _)). sm. auto.
    + rewrite On by trivial. auto.
    + eapply exec_cache; eauto. discriminate.
    + rewrite On by trivial. sm. auto.
    + rewrite E. sm. auto.
    + rewrite On by trivial. auto.
    + eapply exec_cache; eauto. discriminate.
    + rewrite On by trivial. auto.
    + rewrite E'. exact (wexec_cache _ _ _ _ _ E (IH i Hj)).
    + rewrite On by trivial. sm. auto.
  - intros k Hk. destruct Hs as [i l _ _ E _ (_ & On)|i _ _ E _ (_ & On)]; (destruct (Nat.eq_dec k i) as [->|N]; [rewrite E; exact (IH i Hk)|rewrite On by trivial; auto]).
Qed.

(** what the calling thread does after it started the threads of a column *)
Theorem header_alone S0 S S' S'' i c j k : sstart cfg T nt S0 -> sreach cfg T nt S0 S -> smove cfg T nt S S' -> (i < ncol S)%nat ->
  code (cst S i) = IStart :: c -> code (cst S' i) = c -> encoders_go S' S'' -> running S'' -> fits32 (man S'') ->
  forall a b, In a (late_acc (A := data (colenv i)) (ncol S) i IStart) -> pending S'' (Encoder j k) b -> ~ conflict a b.
Proof.
  intros St H Mv Hi Hc Hc' Go R'' Ft'' a b Ha Hb.
  assert (H' : sreach cfg T nt S0 S') by (eapply sreach_step; [exact H|now apply ss_move]).
  pose proof (go_reach _ _ Go S0 H') as H''.
  assert (Back : forall S1, encoders_go S' S1 -> running S1 -> fits32 (man S1) -> running S' /\ fits32 (man S')).
  { induction 1 as [|S1 S2 G IH Hs _]; intros R1 F1; [now split|]. assert (Hs' : sstep cfg T nt S1 S2) by (destruct Hs; [now apply ss_move|now apply ss_wake]).
    apply IH; [exact (sstep_running cfg T nt _ _ Hs' R1)|]. apply (sstep_fits cfg T nt _ _ Hs' (small_reach S0 S1 St (go_reach _ _ G S0 H'))); trivial. }
  destruct (Back S'' Go R'' Ft'') as (R' & Ft'). assert (Hs : sstep cfg T nt S S') by now apply ss_move.
  assert (R : running S) by exact (sstep_running cfg T nt _ _ Hs R').
  assert (Ft : fits32 (man S)) by (apply (sstep_fits cfg T nt _ _ Hs (small_reach S0 S St H)); trivial).
  pose proof (final_si cfg T nt NT HA S0 S St H R Ft) as I. pose proof (final_si cfg T nt NT HA S0 S' St H' R' Ft') as I'. pose proof (final_si cfg T nt NT HA S0 S'' St H'' R'' Ft'') as I''.
  assert (X : no_items S) by (apply (starting_reach S0 S St H R Ft); exists i; split; trivial; rewrite Hc; now left).
  pose proof (si_ncol _ _ _ I I') as Nc.
  assert (X' : no_items S').
  { clear - Mv Hc Hc' X Nc Hi. intros j Hj. rewrite Nc in Hj.
    destruct Mv as [i' x c' Hi' R Hcx _ _ Ho E _ (_ & On)|i' b c' col old Hcol R Hcx _ Ho _ _ E _ (_ & On)|i' n m c' _ R Hcx _ Ea Ho _ E _ On|i' n m c' _ _ Hcx _ _ _ _ E _ (_ & On)
      |i' n m c' _ R Hcx _ Na E _ (_ & On)|i' k' w y s' w' col Hcol R Hw _ E E' _ _ On].
    - destruct (Nat.eq_dec i i') as [<-|N]; [|exfalso; rewrite (On i N), Hc in Hc'; exact (longer _ _ Hc')].
      rewrite Hc in Hcx. injection Hcx as <- <-. destruct (Nat.eq_dec j i) as [->|N]; [eapply exec_cache; eauto; discriminate|rewrite On by trivial; auto].
    - destruct (Nat.eq_dec i i') as [<-|N]; [congruence|exfalso; rewrite (On i N), Hc in Hc'; exact (longer _ _ Hc')].
    - destruct (Nat.eq_dec i i') as [<-|N]; [congruence|exfalso]. rewrite (Ho i Hi N) in Hc. discriminate.
    - destruct (Nat.eq_dec i i') as [<-|N]; [congruence|exfalso; rewrite (On i N), Hc in Hc'; exact (longer _ _ Hc')].
    - destruct (Nat.eq_dec i i') as [<-|N]; [congruence|exfalso; rewrite (On i N), Hc in Hc'; exact (longer _ _ Hc')].
    - destruct (Nat.eq_dec j i') as [->|N]; [rewrite E'; exact (wexec_cache _ _ _ _ _ E (X i' Hj))|rewrite On by trivial; exact (X j Hj)]. }
  destruct (go_items _ _ Go X') as (Nc' & X'').
  inversion Hb as [|j' k' w b' Hj Hw Hbb]; subst j' k' b'. apply worker_classes in Hbb. intros (E1 & E2 & E3).
  destruct Hbb as [Wb Lb|_ Lb|n z _ Ew Lb|n _ Lb].
  3: exact (no_writer S0 S'' j k w n z St I'' R'' Hj X'' Hw Ew).
  all: cbn [late_acc] in Ha; rewrite !in_app_iff, !in_map_iff in Ha; cbn in Ha;
    destruct Ha as [[<-|[<-|[<-|[<-|[]]]]]|[(q & <- & _)|(q & <- & _)]]; cbn in *; 
    repeat match goal with H : _ \/ _ |- _ => destruct H as [H|H] end; congruence.
Qed.

Theorem joined S0 S i : sstart cfg T nt S0 -> sreach cfg T nt S0 S -> running S -> fits32 (man S) -> (i < ncol S)%nat ->
  closed (cst S i) = true -> code (cst S i) = [] -> workers (cst S i) = [].
Proof.
  intros St H R Ft Hi Cl Hc. pose proof (final_si cfg T nt NT HA S0 S St H R Ft) as I.
  pose proof (i_phase _ _ (si_inv cfg T nt allA NT S0 S i St I R Hi)) as P. rewrite Hc in P. remember [] as l eqn:El in P.
  destruct P as [B| | | |st| | | |st| | | | | | | | | | | | | | | | | |]; try discriminate El; try (destruct st; discriminate El); trivial. destruct B as (B & _). congruence.
Qed.

(** ** When the premise holds *)
Lemma opened_faults {e} (s0 s : state e) : (nthreads e <> 0)%nat -> starts s0 -> rpb s0 <> 0 -> reach s0 s -> status s = Running -> rpb s <> 0 /\ ~ In (FLong 0) (faults s).
Proof.
  intros Hn St Z H. induction H as [|s s' H IH Hs]; intros R.
  - split; trivial. destruct St; auto.
  - pose proof (step_running _ _ Hs R) as R1. specialize (IH R1). destruct IH as (Zs & F). pose proof (inv_reach s0 s Hn St H R1) as I.
    assert (X : rpb s' = rpb s /\ forall f, In f (faults s') -> In f (faults s) \/ f <> FLong 0); [|destruct X as (-> & X); split; trivial; intros Hf; destruct (X _ Hf); auto].
    destruct Hs as [s1 Hs|a _ _ _ _|k _|_|n _ _ _]; try (now split; auto). destruct Hs as [junk x c s2 _ Hc _ E _|k w y s2 w' _ _ _ E].
    + assert (Pb : forall (t : state e) r row d, rpb (put_buffer t r row d) = rpb t).
      { intros t r row d. unfold put_buffer. now destruct (SetData _ _ _ _ _ _). }
      destruct x; cbn [exec] in E; try (destruct (set_none _ _ _ _ _ I Hc) as (Q & _); contradiction);
        repeat match type of E with match ?b with _ => _ end = Some _ => destruct b eqn:? end; try discriminate; injection E as <-; rewrite ?Pb, ?put_faults; sm; try (now split; auto).
      * unfold load. destruct (cached _ _); (match goal with |- context [if ?b then _ else _] => destruct b end;
          [match goal with |- context [match ?b with _ => _ end] => destruct b end; [|destruct junk]|]); cbn; (split; [reflexivity|]); auto; intros f [<-|Hf]; auto; right; discriminate.
      * destruct (changed s); cbn; (split; [reflexivity|]); auto; intros f [<-|Hf]; auto; right; discriminate.
      * destruct (rpb s =? 0); split; auto.
    + destruct w; cbn [wexec] in E; unfold pick in E; try destruct (isWriteItemAvailable (cache s)) as [(b & x)|];
        repeat match type of E with (if ?b then _ else _) = Some _ => destruct b end; try discriminate; injection E as <- <-; split; auto.
Qed.

Theorem opened_no_empty m S : rowsPerBlock m <> 0 -> sstart cfg T nt (sopen cfg T nt m) -> sreach cfg T nt (sopen cfg T nt m) S -> running S -> fits32 (man S) -> no_empty_block S.
Proof.
  intros Z St H R Ft i Hi. pose proof (final_si cfg T nt NT HA _ S St H R Ft) as I.
  apply (opened_faults (cst (sopen cfg T nt m) i)); [exact NT|now apply start_starts|exact Z|now apply (s_reach _ _ _ _ _ _ I)|now apply R].
Qed.

Theorem order_no_empty m0 D K : (forall i r, (nSamp (colenv i) <= length (D i r))%nat) ->
  nBlocksInFile m0 = 0 /\ rowsPerBlock m0 = 0 /\ antennaCount m0 < 2 ^ 32 /\ described cfg m0 ->
  forall ks S, sys_order cfg T nt m0 D K ks S -> running S -> fits32 (man S) -> no_empty_block S.
Proof.
  intros HD New ks S H R Ft i Hi Hf.
  pose proof (so_reach cfg T nt allA NT (allA_below T HA) allA_32 m0 D K HD New ks S H R Ft) as I.
  pose proof (order_no_fault True (D i) (HD i) (ks i) (cst S i) NT (o_order _ _ _ _ _ _ _ _ _ I i Hi) (R i Hi)) as Q. rewrite Q in Hf. destruct Hf.
Qed.
End races.

Theorem in_order_no_race cfg T nt m (D : forall i, N -> list (data (colenv cfg T nt i))) K ks S : nt <> 0%nat -> ants32 T -> new_table cfg m ->
  (forall i r, (nSamp (colenv cfg T nt i) <= length (D i r))%nat) -> sys_order cfg T nt m D K ks S -> running cfg T nt S -> fits32 (man cfg T nt S) -> ~ data_race S.
Proof.
  intros NT HA Nw HD H R Ft. assert (New : nBlocksInFile m = 0 /\ rowsPerBlock m = 0 /\ antennaCount m < 2 ^ 32 /\ described cfg m).
  { destruct Nw as [N1 N2 N3 N4 N5 N6 N7 N8 N9 N10]. split; trivial. split; trivial. split; [|trivial]. apply N5. }
  apply (no_race cfg T nt NT HA (snew cfg T nt m)); trivial.
  - destruct New as (Q1 & Q2 & Q3 & Q4). now constructor.
  - exact (order_sreach cfg T nt m D K ks S H).
  - exact (order_no_empty cfg T nt NT HA m D K HD New ks S H R Ft).
Qed.

Theorem opened_no_race cfg T nt m S : nt <> 0%nat -> ants32 T -> rowsPerBlock m <> 0 -> sstart cfg T nt (sopen cfg T nt m) -> sreach cfg T nt (sopen cfg T nt m) S ->
  running cfg T nt S -> fits32 (man cfg T nt S) -> ~ data_race S.
Proof.
  intros NT HA Z St H R Ft. apply (no_race cfg T nt NT HA (sopen cfg T nt m)); trivial. exact (opened_no_empty cfg T nt NT HA m S Z St H R Ft).
Qed.
