(** Runs of small columns, used as witnesses and examples. *)
From Verif Require Import Base BaseLemmas TimeBlockBuffer TbbSpec TbbProofs Column ColumnSpec ColumnProofs ColumnInv ColumnReach ColumnTerm ColumnData ColumnOrder ColumnMore.
Local Open Scope N_scope.

(** One sample per row, a lossless codec, rows [rpb*k .. rpb*k+rpb-1] at time k. *)
Definition toy (per : Z) (nt : nat) : env :=
  Env N (list (list N)) 1 (fun _ _ x y => y = map visibilities x) (fun _ _ _ y => y)
    (fun r => (0%nat, 1%nat)) (fun r => (Z.of_N r / per)%Z) (fun _ => 0%Z) (fun _ => 0%Z) nt false.

Inductive act := AMain | AWork (k : nat) | APut (row d : N) | AGet (row : N) | AShut | AAdd.

Definition do_call {p nt} (s : state (toy p nt)) (a : call (toy p nt)) (ok : bool) : option (state (toy p nt)) :=
  match status s, code s, closed s, ok with
  | Running, [], false, true => Some (set_code s (call_code a))
  | _, _, _, _ => None
  end.

Definition run1 {p nt} (s : state (toy p nt)) (a : act) : option (state (toy p nt)) :=
  match a with
  | AMain => match status s, code s, mwait s with
             | Running, i :: c, false => exec None s i c
             | _, _, _ => None
             end
  | AWork k => match status s, nth_error (workers s) k with
               | Running, Some w =>
                   match wexec (match w with WPicked _ x => map visibilities x | _ => [] end : bytes (toy p nt)) s w with
                   | Some (s', w') => Some (set_worker s' k w')
                   | None => None
                   end
               | _, _ => None
               end
  | APut row d => do_call s (@Put (toy p nt) row [d]) (row <? 2 ^ 32)
  | AGet row => do_call s (@Get (toy p nt) row) (row <? 2 ^ 32)
  | AShut => do_call s Shutdown true
  | AAdd => do_call s AddColumn (nblk s =? 0)
  end.

Fixpoint run {p nt} (l : list act) (s : state (toy p nt)) : option (state (toy p nt)) :=
  match l with
  | [] => Some s
  | a :: l => match run1 s a with Some s' => run l s' | None => None end
  end.

Lemma run1_step {p nt} (s s' : state (toy p nt)) a : run1 s a = Some s' -> step s s'.
Proof.
  assert (C : forall b ok, do_call s b ok = Some s' -> (ok = true -> call_ok s b) -> step s s').
  { intros b ok E Hk. unfold do_call in E. destruct (status s) eqn:R; try discriminate. destruct (code s) eqn:Hc; try discriminate.
    destruct (closed s) eqn:Cl; try discriminate. destruct ok; try discriminate. injection E as <-. now apply step_call; auto. }
  destruct a; cbn [run1]; intros E.
  - destruct (status s) eqn:R; try discriminate. destruct (code s) as [|i c] eqn:Hc; try discriminate.
    destruct (mwait s) eqn:Mw; try discriminate. apply step_int. eapply step_main; eauto. exact Logic.I.
  - destruct (status s) eqn:R; try discriminate. destruct (nth_error (workers s) k) as [w|] eqn:Hw; try discriminate.
    destruct (wexec _ s w) as [(s1 & w1)|] eqn:Ew; try discriminate. injection E as <-. apply step_int. eapply step_worker; eauto.
    intros b x -> _. reflexivity.
  - eapply C; eauto. cbn. apply N.ltb_lt.
  - eapply C; eauto. cbn. apply N.ltb_lt.
  - eapply C; eauto. now intros _.
  - eapply C; eauto. cbn. apply N.eqb_eq.
Qed.

Lemma run_reach {p nt} l : forall (s s' : state (toy p nt)), run l s = Some s' -> reach s s'.
Proof.
  induction l as [|a l IH]; intros s s'; cbn [run].
  - intros [= <-]. constructor.
  - destruct (run1 s a) as [s1|] eqn:E; [|discriminate]. intros H. apply IH in H. apply run1_step in E.
    apply (reach_trans s s1 s'); trivial. eapply reach_step; [constructor|exact E].
Qed.

(** the state after [l] from a new column *)
Definition after p nt l : state (toy p nt) := match run l (fresh (toy p nt)) with Some s => s | None => fresh _ end.
Definition runs p nt l : bool := match run l (fresh (toy p nt)) with Some _ => true | None => false end.

Lemma after_reach p nt l : runs p nt l = true -> reach (fresh (toy p nt)) (after p nt l).
Proof. unfold runs, after. destruct (run l _) eqn:E; [|discriminate]. intros _. now apply run_reach in E. Qed.

Lemma run_app {p nt} l1 l2 : forall s : state (toy p nt), run (l1 ++ l2) s = match run l1 s with Some s' => run l2 s' | None => None end.
Proof. induction l1 as [|a l1 IH]; intros s; cbn [run app]; trivial. destruct (run1 s a); auto. Qed.

Lemma after_istep p nt l : runs p nt (l ++ [AMain]) = true -> istep (after p nt l) (after p nt (l ++ [AMain])).
Proof.
  unfold runs, after. rewrite !run_app. destruct (run l (fresh (toy p nt))) as [s|] eqn:E; [|discriminate]. cbn [run].
  destruct (run1 s AMain) as [s'|] eqn:E1; [|discriminate]. intros _. cbn [run1] in E1.
  destruct (status s) eqn:R; try discriminate. destruct (code s) as [|i c] eqn:Hc; try discriminate.
  destruct (mwait s) eqn:Mw; try discriminate. eapply step_main; eauto. exact Logic.I.
Qed.

Lemma toy_kept p nt : rows_kept (toy p nt).
Proof. intros rp na b x y. cbn. intros ->. now rewrite map_length. Qed.

Lemma toy_enc p nt : forall rp na x, encodable (toy p nt) rp na x = true -> exists y, enc (toy p nt) rp na x y.
Proof. intros rp na x _. now exists (map visibilities x). Qed.

(** the codec loses nothing *)
Lemma toy_coded p nt rp na b r d v : coded (toy p nt) rp na b r d v -> v = d.
Proof.
  induction 1 as [|u v x y rw H IH H1 H2 H3 H4]; [trivial|]. cbn in H3, H4. subst y. pose proof (map_nth_error visibilities r x H1) as H5. cbn in H5. assert (H6 : Some v = Some (visibilities rw)) by (etransitivity; [symmetry; exact H4|exact H5]). congruence.
Qed.

Definition mains n : list act := repeat AMain n.

(** rows 0 and 1 in different blocks; the encoding thread has not started *)
Definition two_blocks : list act := [APut 0 5] ++ mains 1 ++ [APut 1 6] ++ mains 8.

(** C35: row 0 is read as zeros *)
Definition l35 : list act := two_blocks ++ [AGet 0].
Lemma trace35 : let s := after 1 1 l35 in reach (fresh (toy 1 1)) s /\ status s = Running /\ faults s = [] /\ val s 0 = Some [5] /\
  exists s', istep s s' /\ outs s' = (0, AZero) :: outs s.
Proof.
  intros s. split; [now apply after_reach; vm_compute|]. do 3 (split; [now vm_compute|]).
  exists (after 1 1 (l35 ++ [AMain])). split; [apply after_istep; now vm_compute|now vm_compute].
Qed.

(** the same, after the encoding thread wrote the block *)
Definition l35ok : list act := two_blocks ++ [AWork 0; AWork 0; AWork 0; AGet 0] ++ mains 5.
Lemma trace35ok : let s := after 1 1 l35ok in reach (fresh (toy 1 1)) s /\ status s = Running /\ faults s = [] /\ val s 0 = Some [5] /\
  exists s', istep s s' /\ outs s' = (0, AVals [5]) :: outs s.
Proof.
  intros s. split; [now apply after_reach; vm_compute|]. do 3 (split; [now vm_compute|]).
  exists (after 1 1 (l35ok ++ [AMain])). split; [apply after_istep; now vm_compute|now vm_compute].
Qed.

(** C36: block 0 has rows 0 and 1; row 0 is put again while block 0 waits in the cache *)
Definition three_rows : list act := [APut 0 5] ++ mains 1 ++ [APut 1 6] ++ mains 1 ++ [APut 2 7] ++ mains 8.
Definition l36 : list act :=
  three_rows ++ [APut 0 8] ++ mains 5 ++ [AShut] ++ mains 2 ++ repeat (AWork 0) 3 ++ mains 1 ++ repeat (AWork 0) 6 ++ [AMain; AWork 0; AMain].
Lemma trace36 : let s := after 2 1 l36 in reach (fresh (toy 2 1)) s /\ status s = Running /\ closed s = true /\ code s = [] /\
  rpb s = 2 /\ val s 1 = Some [6] /\ file s 0 = Some [[8]].
Proof. intros s. split; [now apply after_reach; vm_compute|]. repeat (split; [now vm_compute|]). now vm_compute. Qed.

(** the same with a pause, so that block 0 is in the file when row 0 is put again *)
Definition l36ok : list act :=
  three_rows ++ repeat (AWork 0) 3 ++ [APut 0 8] ++ mains 5 ++ [AShut] ++ mains 2 ++ repeat (AWork 0) 6 ++ [AMain; AWork 0; AMain].
Lemma trace36ok : let s := after 2 1 l36ok in reach (fresh (toy 2 1)) s /\ status s = Running /\ closed s = true /\ code s = [] /\
  faults s = [] /\ rpb s = 2 /\ val s 1 = Some [6] /\ file s 0 = Some [[8]; [6]] /\ file s 1 = Some [[7]].
Proof. intros s. split; [now apply after_reach; vm_compute|]. repeat (split; [now vm_compute|]). now vm_compute. Qed.

(** C38: block 0 waits in the cache when a column is added *)
Definition l38 : list act := two_blocks ++ [AAdd] ++ mains 1.
Lemma trace38 : let s := after 1 1 l38 in reach (fresh (toy 1 1)) s /\ stuck s /\ code s = [IStop; IReset; IPrepared; IUnlock].
Proof.
  intros s. split; [now apply after_reach; vm_compute|]. split; [|now vm_compute].
  assert (Ec : cache s = [(0, ([DRow 0 1 [5]], false))]) by now vm_compute.
  assert (Ew : workers s = [WTop]) by now vm_compute.
  assert (E1 : rpb s = 1) by now vm_compute. assert (E2 : nant s = 2%nat) by now vm_compute.
  unfold stuck. rewrite Ec, Ew, E1, E2. split; [now vm_compute|]. split; [now vm_compute|]. split; [discriminate|].
  split; [exists [IReset; IPrepared; IUnlock]; now vm_compute|].
  split. { intros b x w [Q|[]]. injection Q as <- <- <-. now vm_compute. }
  split. { intros b x [Q|[]]. discriminate. }
  exists 0, [DRow 0 1 [5]], false. split; [now left|]. intros [Q|[]]. discriminate.
Qed.

(** C41: row 4 is never put *)
Definition l41 : list act :=
  three_rows ++ repeat (AWork 0) 3 ++ [APut 5 9] ++ mains 5 ++ repeat (AWork 0) 3 ++ [APut 6 10] ++ mains 5 ++ repeat (AWork 0) 2.
Lemma trace41 : let s := after 2 1 l41 in reach (fresh (toy 2 1)) s /\ status s = Undefined.
Proof. intros s. split; [now apply after_reach; vm_compute|now vm_compute]. Qed.

(** C51: row 0 is put, a column is added, nothing of row 0 is left *)
Definition l51 : list act := [APut 0 5] ++ mains 1 ++ [AAdd] ++ mains 5.
Lemma trace51 : let s := after 2 1 l51 in reach (fresh (toy 2 1)) s /\ status s = Running /\ code s = [] /\ closed s = false /\
  val s 0 = Some [5] /\ tb s = [] /\ cache s = [] /\ (forall b, file s b = None) /\ faults s = [FReset].
Proof. intros s. split; [now apply after_reach; vm_compute|]. do 6 (split; [now vm_compute|]). split; [intros b; now vm_compute|now vm_compute]. Qed.

(** writing on is undefined *)
Definition l51b : list act := l51 ++ [APut 1 6] ++ mains 1 ++ [APut 2 7] ++ mains 8 ++ repeat (AWork 0) 2.
Lemma after_app p nt l1 l2 : runs p nt l1 = true -> runs p nt (l1 ++ l2) = true -> reach (after p nt l1) (after p nt (l1 ++ l2)).
Proof.
  unfold runs, after. rewrite run_app. destruct (run l1 _) as [s|]; [|discriminate]. intros _. destruct (run l2 s) eqn:E; [|discriminate].
  intros _. now apply run_reach in E.
Qed.

Lemma trace51b : reach (after 2 1 l51) (after 2 1 l51b) /\ status (after 2 1 l51b) = Undefined.
Proof. split; [apply after_app; now vm_compute|now vm_compute]. Qed.

(** C39: any number of rows of one time block *)
Lemma single_block_run {e} (D : N -> list (data e)) : (nthreads e <> 0)%nat -> (forall r, (nSamp e <= length (D r))%nat) -> forall k, k < 2 ^ 32 ->
  (forall r, r < k -> same_keys e r 0) ->
  exists s, in_order False D k s /\ status s = Running /\ code s = [] /\ closed s = false /\ ordA D k s /\ mwait s = false.
Proof.
  intros NT HD. induction k as [|k IH] using N.peano_ind; intros Lk Sk.
  - exists (fresh e). split; [constructor|]. do 3 (split; [reflexivity|]). split; [|reflexivity].
    exists 0. cbn. do 3 (split; [trivial|]). split; [intros r Hr; lia|]. left. split; [repeat split; try easy; intros r Hr; lia|]. now left.
  - rewrite <- N.add_1_r in *. destruct IH as (s & H & R & C & Cl & A & Mw); [lia|intros r Hr; apply Sk; lia|].
    assert (H1 : in_order False D (k + 1) (set_code s (call_code (Put k (D k))))) by (apply io_put; trivial; lia).
    pose proof A as A0. destruct A as (m & R0 & W0 & F0 & K0 & A).
    destruct A as [((C0 & Cu & Ch & Fi & Ky) & [A|[A|[A|[A|[A|[A|A]]]]]])|A]; destruct A as (A & A' & A''); try congruence. subst m.
    assert (Ex : exists s', exec None (set_code s [IPut k (D k)]) (IPut k (D k)) [] = Some s' /\ status s' = Running /\ code s' = [] /\ closed s' = false /\ mwait s' = false).
    { destruct (set_ok (nSamp e) (tb s) (N.to_nat k) (fst (ants e k)) (snd (ants e k)) (D k) (HD k)) as (b & Eb & _).
      cbn [exec]. sm. rewrite R0. cbn [N.eqb]. destruct (Empty (tb s)) eqn:Em.
      - eexists. split; [reflexivity|]. unfold put_buffer. sm. rewrite Eb. sm. auto.
      - assert (Hk : k <> 0). { intros ->. destruct Fi as (L & _). destruct (tb s); [discriminate|]. cbn in L. lia. }
        assert (Q : keys_differ e k (keyrow s) = false) by (rewrite (Ky Hk); apply keys_same, Sk; lia). rewrite Q.
        eexists. split; [reflexivity|]. unfold put_buffer. sm. rewrite Eb. sm. auto. }
    destruct Ex as (s' & E & R' & C' & Cl' & Mw').
    assert (St : step (set_code s (call_code (Put k (D k)))) s').
    { apply step_int. eapply (step_main _ None); [exact R|reflexivity|exact Mw|exact E|exact Logic.I]. }
    exists s'. split; [eapply io_step; [exact H1|exact St|now right]|]. do 3 (split; [trivial|]). split; [|trivial].
    destruct (ord_reach False D HD (k + 1) s' NT) as [X|[(n & na & m & B)|([] & _)]]; trivial; [eapply io_step; [exact H1|exact St|now right]|]. exfalso.
    destruct B as ([B0|([] & _)] & (B1 & B2 & B3) & _). apply B3. now apply Sk.
Qed.

Lemma single_block_throws {e} (D : N -> list (data e)) : (nthreads e <> 0)%nat -> (forall r, (nSamp e <= length (D r))%nat) -> forall k, 0 < k -> k < 2 ^ 32 ->
  (forall r, r < k -> same_keys e r 0) -> exists s, in_order False D k s /\ closed s = true /\ code s = [] /\ status s = Thrown.
Proof.
  intros NT HD k Pk Lk Sk. destruct (single_block_run D NT HD k Lk Sk) as (s & H & R & C & Cl & A & Mw).
  destruct A as (m & R0 & W0 & F0 & K0 & A).
  destruct A as [((C0 & Cu & Ch & Fi & Ky) & [A|[A|[A|[A|[A|[A|A]]]]]])|A]; destruct A as (A & A' & A''); try congruence. subst m.
  assert (Hk : k <> 0) by lia. apply N.eqb_neq in Hk. rewrite Hk in *. cbn [negb] in Ch.
  pose proof (io_close False D k s H R C Cl) as H1. cbn [call_code] in H1.
  assert (H2 : in_order False D k (set_closed (set_code s [IStore; IStop]))).
  { eapply io_step; [exact H1| |left; discriminate]. apply step_int. eapply (step_main _ None); [exact R|reflexivity|exact Mw| |exact Logic.I].
    cbn [exec]. sm. rewrite Ch. reflexivity. }
  assert (H3 : exists s3, in_order False D k s3 /\ status s3 = Running /\ closed s3 = true /\ code s3 = [IStop] /\ mwait s3 = false /\ workers s3 = [] /\ cache s3 <> []).
  { eexists. split; [eapply io_step; [exact H2| |left; discriminate]; apply step_int; eapply (step_main _ None); [exact R|reflexivity|exact Mw| |exact Logic.I]|].
    - cbn [exec]. sm. rewrite C0.
      assert (X : (maxCache e <=? length (@nil (N * (tbb (data e) * bool))))%nat || cached (@nil (N * (tbb (data e) * bool))) (cur s) = false).
      { unfold maxCache. cbn [length]. destruct (Nat.leb_spec (nthreads e * 12 / 10 + 1) 0); [lia|reflexivity]. }
      rewrite X. reflexivity.
    - unfold notify. sm. rewrite W0. repeat split; trivial. discriminate. }
  destruct H3 as (s3 & H3 & R3 & Cl3 & C3 & Mw3 & W3 & Ca3).
  exists (set_status (set_code s3 []) Thrown). split; [|now repeat split].
  eapply io_step; [exact H3| |left; congruence]. apply step_int. eapply (step_main _ None); [exact R3|exact C3|exact Mw3| |exact Logic.I].
  cbn [exec]. rewrite W3. destruct (cache s3); [easy|reflexivity].
Qed.

(** runs that write rows in order; row [r] gets [10 + r] *)
Definition toyD (r : N) : list N := [10 + r].
Fixpoint orun {p nt} (l : list act) (k : N) (s : state (toy p nt)) : option (N * state (toy p nt)) :=
  match l with
  | [] => Some (k, s)
  | a :: l =>
      match run1 s a with
      | Some s' => match a with
                   | APut r d => if (r =? k) && (d =? 10 + k) then orun l (k + 1) s' else None
                   | AMain | AWork _ | AShut => orun l k s'
                   | _ => None
                   end
      | None => None
      end
  end.

Lemma do_call_inv {p nt} (s s' : state (toy p nt)) b ok : do_call s b ok = Some s' ->
  status s = Running /\ code s = [] /\ closed s = false /\ ok = true /\ s' = set_code s (call_code b).
Proof.
  unfold do_call. destruct (status s), (code s), (closed s), ok; try discriminate. intros [= <-]. auto 10.
Qed.

Lemma orun_order {p nt} o l : forall k k' (s s' : state (toy p nt)), in_order (e := toy p nt) o toyD k s -> orun l k s = Some (k', s') ->
  in_order (e := toy p nt) o toyD k' s'.
Proof.
  induction l as [|a l IH]; intros k k' s s' H; cbn [orun]; [now intros [= <- <-]|].
  destruct (run1 s a) as [s1|] eqn:E; [|discriminate]. pose proof (run1_step _ _ _ E) as St. destruct a; cbn [run1] in E; try discriminate.
  - apply IH. eapply io_step; eauto. left. destruct (status s); try discriminate. destruct (code s); discriminate.
  - apply IH. eapply io_step; eauto. destruct (status s); try discriminate. destruct (nth_error (workers s) k0) as [w|]; try discriminate.
    destruct (wexec _ s w) as [(s2 & w2)|] eqn:Ew; try discriminate. injection E as <-.
    assert (Q : code s2 = code s).
    { destruct w as [| | |b x|b|]; cbn [wexec] in Ew; unfold pick in Ew;
      repeat match type of Ew with
      | (if ?b then _ else _) = Some _ => destruct b
      | match match ?b with _ => _ end with _ => _ end = Some _ => destruct b
      | match ?b with _ => _ end = Some _ => destruct b
      end; try discriminate; injection Ew as <- <-; reflexivity. }
    change (code (set_worker s2 k0 w2)) with (code s2). rewrite Q. destruct (code s); [now right|left; discriminate].
  - destruct (N.eqb_spec row k) as [->|]; [|discriminate]. destruct (N.eqb_spec d (10 + k)) as [->|]; [|discriminate]. cbn [andb].
    apply IH. apply do_call_inv in E. destruct E as (R & C & Cl & L & ->). apply N.ltb_lt in L. exact (io_put (e := toy p nt) o toyD k s H R C Cl L).
  - apply IH. apply do_call_inv in E. destruct E as (R & C & Cl & L & ->). now apply io_close.
Qed.

Definition oafter p nt l : N * state (toy p nt) := match orun l 0 (fresh (toy p nt)) with Some r => r | None => (0, fresh _) end.
Definition oruns p nt l : bool := match orun l 0 (fresh (toy p nt)) with Some _ => true | None => false end.
Lemma oafter_order p nt l : oruns p nt l = true -> in_order (e := toy p nt) False toyD (fst (oafter p nt l)) (snd (oafter p nt l)).
Proof.
  unfold oruns, oafter. destruct (orun l 0 _) as [(k & s)|] eqn:E; [|discriminate]. intros _. eapply orun_order; eauto. constructor.
Qed.

(** two rows per block, three rows, two encoding threads, closed *)
Definition l52 : list act :=
  [APut 0 10] ++ mains 1 ++ [APut 1 11] ++ mains 1 ++ [APut 2 12] ++ mains 8 ++ [AShut; AMain; AMain; AWork 0; AWork 1; AWork 1; AWork 0; AWork 0; AWork 1;
   AMain; AWork 1; AWork 0; AMain].
Lemma trace52 : let s := snd (oafter 2 2 l52) in in_order (e := toy 2 2) False toyD 3 s /\ status s = Running /\ closed s = true /\ code s = [] /\
  first_block (toy 2 2) 2 /\ antenna_count (toy 2 2) 2 2 /\ rpb s = 2 /\ nant s = 2%nat /\ file s 0 = Some [[10]; [11]] /\ file s 1 = Some [[12]].
Proof.
  intros s. split. { change 3 with (fst (oafter 2 2 l52)). apply oafter_order. now vm_compute. }
  do 3 (split; [now vm_compute|]). split.
  { split; [lia|]. split; [|now vm_compute]. intros r Hr. assert (r = 0 \/ r = 1) as [->| ->] by lia; now vm_compute. }
  split. { split; [cbn; lia|]. exists 0. cbn. lia. }
  do 3 (split; [now vm_compute|]). now vm_compute.
Qed.

(** the same, where another column finds the block size after two rows *)
Definition l40a : list act := [APut 0 10] ++ mains 1 ++ [APut 1 11] ++ mains 1.
Definition s40a : state (toy 2 2) := set_code (snd (oafter 2 2 l40a)) (call_code (@OtherInit (toy 2 2) 2 2)).
Definition l40b : list act := mains 3 ++ [APut 2 12] ++ mains 5 ++ [AShut; AMain; AMain; AWork 0; AWork 1; AWork 1; AWork 0; AWork 0; AWork 1;
   AMain; AWork 1; AWork 0; AMain].
Lemma order_more {e} (o o' : Prop) D k (s : state e) : (o -> o') -> in_order o D k s -> in_order o' D k s.
Proof. intros Ho. induction 1; [apply io_new|now apply io_put|now apply io_close|eapply io_step; eauto|now apply io_other; auto]. Qed.
Definition s40b : state (toy 2 2) := match orun l40b 2 s40a with Some r => snd r | None => fresh _ end.
Lemma trace40 : let s := s40b in in_order (e := toy 2 2) True toyD 3 s /\ status s = Running /\ closed s = true /\ code s = [] /\
  first_block (toy 2 2) 2 /\ antenna_count (toy 2 2) 2 2 /\ rpb s = 2 /\ nant s = 2%nat /\ file s 0 = Some [[10]; [11]] /\ file s 1 = Some [[12]].
Proof.
  intros s.
  assert (Fb : first_block (toy 2 2) 2).
  { split; [lia|]. split; [|now vm_compute]. intros r Hr. assert (r = 0 \/ r = 1) as [->| ->] by lia; now vm_compute. }
  assert (Ac : antenna_count (toy 2 2) 2 2). { split; [cbn; lia|]. exists 0. cbn. lia. }
  split.
  { assert (I1 : in_order (e := toy 2 2) True toyD 2 s40a).
    { apply (io_other (e := toy 2 2) True toyD 2 2 2%nat); trivial; try (now vm_compute).
      change 2 with (fst (oafter 2 2 l40a)). apply (order_more False True); [trivial|]. apply oafter_order. now vm_compute. }
    assert (E : match orun l40b 2 s40a with Some r => fst r = 3 | None => False end) by now vm_compute.
    subst s. unfold s40b. destruct (orun l40b 2 s40a) as [(k & s1)|] eqn:E1; [|destruct E]. cbn [fst snd] in *. subst k. eapply orun_order; eauto. }
  do 3 (split; [now vm_compute|]). split; [trivial|]. split; [trivial|].
  do 3 (split; [now vm_compute|]). now vm_compute.
Qed.
