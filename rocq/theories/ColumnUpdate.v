(** Overwriting rows of an opened column. *)
From Verif Require Import Base BaseLemmas TimeBlockBuffer TbbSpec TbbProofs Column ColumnSpec UpdateSpec ColumnProofs ColumnInv ColumnReach ColumnTerm ColumnData ColumnWhole.
Local Open Scope N_scope.
Local Arguments busy : simpl never. Local Arguments upd : simpl never. Local Arguments insert : simpl never.
Local Arguments erase : simpl never. Local Arguments cached : simpl never. Local Arguments markWritten : simpl never.
Local Arguments maxCache : simpl never.

Section update.
Context {e : env} (f : N -> option (bytes e)) (nb rp : N) (na : nat) (ok : N -> Prop) (okd : list (data e) -> Prop).
Hypotheses (Zr : rp <> 0) (Nb : nb < 2 ^ 64) (Hf : forall b, f b <> None -> b < nb) (Rd : readable f rp na ok) (Kd : forall d, okd d -> (nSamp e <= length d)%nat)
  (NT : (nthreads e <> 0)%nat) (Ha : af e = true -> forall r, (fst (ants e r) < na)%nat /\ (snd (ants e r) < na)%nat).
Notation ublock := (updated_block f rp na).
Notation urow := (updated_row f rp na).
Notation wmap := (N -> option (list (data e))).

(** a block of the file *)
Definition ub (W : wmap) (b : N) (x : tbb (data e)) : Prop := ublock W b x /\ b < nb.

Definition touched (W : wmap) (b : N) : Prop := exists r, r / rp = b /\ W r <> None.

Definition core (W : wmap) (s : state e) : Prop :=
  (forall b x, last s b = Some x -> ub W b x /\ touched W b) /\ (changed s = true -> touched W (cur s)) /\
  (forall r, last s (r / rp) = None -> (changed s = true -> r / rp <> cur s) -> W r = None) /\
  (forall r d, W r = Some d -> okd d).

Definition below (s : state e) (b : N) : Prop := forall b', last s b' <> None -> b' < b.

Definition buf (W : wmap) (fr : N) (s : state e) : Prop :=
  (cur s = noBlock /\ changed s = false /\ forall b, last s b = None) \/ (cur s <= fr /\ ub W (cur s) (tb s) /\ below s (cur s)).

Definition at_row (row fr : N) : Prop := row / rp = fr /\ ok row /\ row < 2 ^ 32.

(** what is left of a call when its block is in the buffer *)
Definition tail (W W0 : wmap) (fr : N) (t : instr (data e)) : Prop :=
  exists row, at_row row fr /\ ((t = IRead row /\ W = W0) \/
    exists d, t = ISet (row mod rp) row d /\ W = upd_map W0 row d /\ okd d).

Inductive ucode (W : wmap) (fr : N) (s : state e) : Prop :=
| U_idle : code s = [] \/ code s = [IShutdown] -> closed s = false -> core W s -> buf W fr s -> ucode W fr s
| U_get row : at_row row fr -> code s = [IGet row] \/ code s = [IWaitNot fr; IGetRow row] \/ code s = [IGetRow row] ->
    closed s = false -> core W s -> buf W fr s -> ucode W fr s
| U_put W0 row d : at_row row fr -> W = upd_map W0 row d -> okd d -> code s = [IPut row d] \/ code s = [IPutRow row d] ->
    closed s = false -> core W0 s -> buf W0 fr s -> ucode W fr s
| U_tail W0 t : tail W W0 fr t -> code s = [t] -> cur s = fr -> closed s = false -> core W0 s -> ub W0 fr (tb s) -> below s fr -> ucode W fr s
| U_store W0 t : tail W W0 fr t -> code s = [IStore; ILoad fr; t] -> closed s = false -> core W0 s -> changed s = true -> cur s < fr ->
    ub W0 (cur s) (tb s) -> below s (cur s) -> ucode W fr s
| U_load W0 t : tail W W0 fr t -> code s = [ILoad fr; t] -> closed s = false -> core W0 s -> changed s = false -> below s fr -> ucode W fr s
| U_cstore : code s = [IStore; IStop] -> closed s = true -> core W s -> changed s = true -> ub W (cur s) (tb s) -> below s (cur s) -> ucode W fr s
| U_closed : code s = [IStop] \/ code s = [IJoin] \/ code s = [] -> closed s = true -> core W s -> changed s = false -> ucode W fr s.

Record uinv (W : wmap) (fr : N) (s : state e) : Prop := {
  u_run : status s = Running; u_rpb : rpb s = rp; u_nant : nant s = na; u_nblk : nb <= nblk s; u_mgr : mgr s = false; u_code : ucode W fr s }.

Lemma core_ext W (s s' : state e) : core W s -> last s' = last s -> changed s' = changed s -> cur s' = cur s -> core W s'.
Proof. unfold core. intros H -> -> ->. exact H. Qed.
Lemma buf_ext W fr (s s' : state e) : buf W fr s -> last s' = last s -> changed s' = changed s -> cur s' = cur s -> tb s' = tb s -> buf W fr s'.
Proof. unfold buf, below. intros H -> -> -> ->. exact H. Qed.

Lemma ucode_ext W fr (s s' : state e) : ucode W fr s -> last s' = last s -> changed s' = changed s -> cur s' = cur s -> tb s' = tb s -> closed s' = closed s -> code s' = code s -> ucode W fr s'.
Proof.
  intros H E1 E2 E3 E4 E5 E6.
  destruct H as [H C K B|row A H C K B|W0 row d A Ew L H C K B|W0 t T H Cu C K U B|W0 t T H C K Ch Cu U B|W0 t T H C K Ch B|H C K Ch U B|H C K Ch];
    rewrite <- ?E6 in H; (try rewrite <- E5 in C); (try rewrite <- E2 in Ch); (try rewrite <- E3 in Cu); (try rewrite <- E3 in U); (try rewrite <- E4 in U).
  - apply U_idle; trivial; [now apply (core_ext W s)|now apply (buf_ext W fr s)].
  - apply (U_get _ _ _ row); trivial; [now apply (core_ext W s)|now apply (buf_ext W fr s)].
  - apply (U_put _ _ _ W0 row d); trivial; [now apply (core_ext W0 s)|now apply (buf_ext W0 fr s)].
  - apply (U_tail _ _ _ W0 t); trivial; [now apply (core_ext W0 s)|]. unfold below. now rewrite E1.
  - apply (U_store _ _ _ W0 t); trivial; [now apply (core_ext W0 s)|]. unfold below. now rewrite E1, E3.
  - apply (U_load _ _ _ W0 t); trivial; [now apply (core_ext W0 s)|]. unfold below. now rewrite E1.
  - apply U_cstore; trivial; [now apply (core_ext W s)|]. unfold below. now rewrite E1, E3.
  - apply U_closed; trivial. now apply (core_ext W s).
Qed.

Lemma row_block r : r / rp * rp + r mod rp = r.
Proof. rewrite (N.div_mod r rp) at 3 by trivial. lia. Qed.

Lemma block_row b i : i < rp -> (b * rp + i) / rp = b /\ (b * rp + i) mod rp = i.
Proof. intros L. split; symmetry; [apply (N.div_unique _ _ _ i)|apply (N.mod_unique _ _ b)]; lia. Qed.

(** another row changes *)
Lemma urow_other W row d r : r <> row -> urow (upd_map W row d) r = urow W r.
Proof. intros H. unfold updated_row, upd_map. now destruct (N.eqb_spec r row). Qed.

Lemma ub_other W row d b x : b <> row / rp -> ub W b x -> ub (upd_map W row d) b x.
Proof.
  intros H ((L & G) & Lb). split; trivial. split; trivial. intros i rw Hi. destruct (G i rw Hi) as (G1 & G2). split; trivial. rewrite urow_other; trivial.
  assert ((i < N.to_nat rp)%nat) by (rewrite <- L; apply nth_error_Some; congruence). destruct (block_row b (N.of_nat i)) as (Q & _); [lia|]. congruence.
Qed.

Lemma ublock_decoded W b y : f b = Some y -> (forall r, r / rp = b -> W r = None) -> ublock W b (decoded e rp b (dec e rp na b y)).
Proof.
  intros Hy Hw. destruct (proj2 Rd b y Hy) as (L & F). pose (rows := dec e rp na b y). fold rows in L, F |- *.
  assert (Q : whole (fun _ _ => True) rp b (decoded e rp b rows)) by (apply whole_decoded; trivial; lia). destruct Q as (_ & Q).
  split; [unfold decoded; rewrite map_length, combine_length, seq_length; lia|].
  intros i row Hi. split; [apply (Q i row Hi)|].
  assert (Li : (i < length rows)%nat). { assert (i < length (decoded e rp b rows))%nat by (apply nth_error_Some; congruence). revert H. unfold decoded. rewrite map_length, combine_length, seq_length. lia. }
  destruct (nth_error rows i) as [v|] eqn:Hv; [|apply nth_error_None in Hv; lia].
  destruct (decoded_nth rp b rows i v Hv) as (rw & R1 & R2). rewrite R1 in Hi. injection Hi as <-.
  destruct (block_row b (N.of_nat i)) as (B1 & B2); [lia|].
  unfold updated_row. rewrite Hw by trivial. unfold stored_row. rewrite B1, B2, Hy, Nat2N.id. fold rows. congruence.
Qed.

Lemma ublock_whole W b x : (forall r d, W r = Some d -> okd d) -> ublock W b x -> whole (fun r v => urow W r = Some v) rp b x.
Proof.
  intros HW (L & G). split; [lia|]. intros i rw Hi. destruct (G i rw Hi) as (G1 & G2). split; trivial. split; trivial.
  revert G2. unfold updated_row. destruct (W _) as [d|] eqn:E; [intros [= <-]; rewrite firstn_length; pose proof (Kd _ (HW _ _ E)); lia|].
  unfold stored_row. destruct (f _) as [y|] eqn:Fy; [|discriminate]. intros H. destruct (proj2 Rd _ _ Fy) as (_ & F).
  rewrite Forall_forall in F. apply F. eapply nth_error_In; eauto.
Qed.

Lemma ublock_encodable W b x : (forall r d, W r = Some d -> okd d) -> ublock W b x -> encodable e rp na x = true.
Proof.
  intros HW U. destruct (ublock_whole W b x HW U) as (L & G). unfold encodable. apply andb_true_intro. split; [apply N.leb_le; lia|].
  apply forallb_forall. intros rw Hin. apply In_nth_error in Hin. destruct Hin as (i & Hi). destruct (G i rw Hi) as (G1 & G2 & _).
  rewrite G2, Nat.eqb_refl. cbn [andb]. destruct (af e) eqn:A; [|reflexivity]. cbn [negb orb]. destruct (Ha eq_refl (b * rp + N.of_nat i)) as (A1 & A2).
  rewrite <- G1 in A1, A2. cbn in A1, A2. apply andb_true_intro. split; now apply Nat.ltb_lt.
Qed.

Lemma noBlock_row row : row < 2 ^ 32 -> row / rp <> noBlock.
Proof.
  intros L E. assert (row / rp <= row) by (apply N.div_le_upper_bound; [trivial|nia]). rewrite E in H. unfold noBlock in H.
  change (2 ^ 32) with 4294967296 in L. change (2 ^ 64) with 18446744073709551616 in H. lia.
Qed.

Lemma not_cached (s : state e) b : inv f s -> last s b = None -> cached (cache s) b = false.
Proof.
  intros I H. destruct (cached (cache s) b) eqn:E; trivial. unfold cached in E. apply existsb_exists in E. destruct E as ((k & (x & w)) & Hin & Hk).
  cbn in Hk. apply N.eqb_eq in Hk. subst k. rewrite (i_last _ _ I _ _ _ Hin) in H. discriminate.
Qed.

Lemma no_last (s : state e) b : below s b -> last s b = None.
Proof. intros H. destruct (last s b) eqn:E; trivial. assert (b < b) by (apply H; congruence). lia. Qed.

Lemma touched_more W row d b : touched W b -> touched (upd_map W row d) b.
Proof. intros (r & H1 & H2). exists r. split; trivial. unfold upd_map. now destruct (r =? row). Qed.

(** one instruction *)
Lemma uinv_main W fr (s s' : state e) junk i c : inv f s -> uinv W fr s -> code s = i :: c -> exec junk s i c = Some s' -> uinv W fr s'.
Proof.
  intros I [R Er En Nk Mg H] Hc E.
  destruct H as [H C K B|row A H C K B|W0 row d A Ew L H C K B|W0 t T H Cu C K U B|W0 t T H C K Ch Cu U B|W0 t T H C K Ch B|H C K Ch U B|H C K Ch].
  - destruct H as [H|H]; rewrite Hc in H; [discriminate|]. injection H as -> ->. cbn [exec] in E. injection E as <-. constructor; sm; trivial.
    destruct (changed s) eqn:Ch.
    + destruct B as [(_ & B & _)|(B1 & B2 & B3)]; [congruence|]. apply U_cstore; sm; trivial.
    + apply U_closed; sm; trivial. now left.
  - destruct A as (A1 & A2 & A3). destruct H as [H|[H|H]]; rewrite Hc in H; injection H as -> ->; cbn [exec] in E.
    + rewrite Er in E. destruct (N.eqb_spec rp 0) as [Z|_]; [easy|]. rewrite A1 in E. destruct (N.leb_spec (nblk s) fr) as [Lb|Lb].
      * exfalso. assert (fr < nb) by (rewrite <- A1; apply Hf, (proj1 Rd), A2). lia.
      * injection E as <-. constructor; sm; trivial. apply (U_get _ _ _ row); sm; trivial; [now split|]. right. now left.
    + destruct (cached (cache s) fr).
      * injection E as <-. constructor; sm; trivial. apply (U_get _ _ _ row); sm; trivial; [now split|]. right. now left.
      * injection E as <-. constructor; sm; trivial. apply (U_get _ _ _ row); sm; trivial; [now split|]. right. now right.
    + assert (T : tail W W fr (IRead row)) by (exists row; split; [now split|now left]). rewrite Er, A1 in E. destruct (N.eqb_spec fr (cur s)) as [Q|Q].
      * injection E as <-. constructor; sm; trivial. destruct B as [(B & _)|(_ & B2 & B3)]; [exfalso; apply (noBlock_row row A3); congruence|].
        rewrite <- Q in B2, B3. apply (U_tail _ _ _ W (IRead row)); sm; trivial. congruence.
      * destruct (changed s) eqn:Ch; injection E as <-; constructor; sm; trivial.
        -- destruct B as [(_ & B & _)|(B1 & B2 & B3)]; [congruence|]. apply (U_store _ _ _ W (IRead row)); sm; trivial. lia.
        -- apply (U_load _ _ _ W (IRead row)); sm; trivial. intros b' Hb. cbn [last set_code] in Hb. destruct B as [(_ & _ & B)|(B1 & _ & B3)]; [now rewrite B in Hb|]. specialize (B3 _ Hb). lia.
  - destruct A as (A1 & A2 & A3). destruct H as [H|H]; rewrite Hc in H; injection H as -> ->; cbn [exec] in E; rewrite Er in E; (destruct (N.eqb_spec rp 0) as [Z|_]; [easy|]).
    + injection E as <-. constructor; sm; trivial. apply (U_put _ _ _ W0 row d); sm; trivial; [now split|]. now right.
    + assert (T : tail W W0 fr (ISet (row mod rp) row d)) by (exists row; split; [now split|right; now exists d]). rewrite A1 in E. destruct (N.eqb_spec fr (cur s)) as [Q|Q].
      * injection E as <-. constructor; sm; trivial. destruct B as [(B & _)|(_ & B2 & B3)]; [exfalso; apply (noBlock_row row A3); congruence|].
        rewrite <- Q in B2, B3. apply (U_tail _ _ _ W0 (ISet (row mod rp) row d)); sm; trivial. congruence.
      * destruct (changed s) eqn:Ch; injection E as <-; constructor; sm; trivial.
        -- destruct B as [(_ & B & _)|(B1 & B2 & B3)]; [congruence|]. apply (U_store _ _ _ W0 (ISet (row mod rp) row d)); sm; trivial. lia.
        -- apply (U_load _ _ _ W0 (ISet (row mod rp) row d)); sm; trivial. intros b' Hb. cbn [last set_code] in Hb. destruct B as [(_ & _ & B)|(B1 & _ & B3)]; [now rewrite B in Hb|]. specialize (B3 _ Hb). lia.
  - rewrite Hc in H. injection H as -> ->. destruct T as (row & (A1 & A2 & A3) & [(-> & ->)|(d & -> & -> & L)]); cbn [exec] in E.
    + rewrite Er in E. pose proof U as ((U1 & U2) & _). unfold GetData in E. destruct (nth_error (tb s) (N.to_nat (row mod rp))) as [rw|] eqn:G.
      * injection E as <-. constructor; sm; trivial. apply U_idle; sm; trivial; [now left|]. right. sm. rewrite Cu. split; [lia|]. now split.
      * exfalso. apply nth_error_None in G. pose proof (N.mod_lt row rp Zr). lia.
    + injection E as <-. unfold put_buffer. cbn [tb set_code].
      destruct (set_ok (nSamp e) (tb s) (N.to_nat (row mod rp)) (fst (ants e row)) (snd (ants e row)) d (Kd _ L)) as (b2 & E' & Lb & Rb & Ob). rewrite E'.
      pose proof (N.mod_lt row rp Zr) as Lm. destruct U as ((U1 & U2) & Un).
      constructor; sm; trivial. apply U_idle; sm; trivial; [now left| |].
      * destruct K as (K1 & K0 & K2 & K3). split; [|split; [|split]].
        -- intros b x Hx. cbn in Hx. destruct (K1 b x Hx) as (K4 & K5). split; [apply ub_other; trivial; assert (b < fr) by (apply B; congruence); lia|now apply touched_more].
        -- intros _. sm. exists row. split; [congruence|]. unfold upd_map. now rewrite N.eqb_refl.
        -- intros r Hr Hn. cbn in Hr, Hn. specialize (Hn eq_refl). unfold upd_map. destruct (N.eqb_spec r row) as [->|Q]; [exfalso; congruence|]. apply K2; auto.
        -- intros r d' Hr. unfold upd_map in Hr. destruct (N.eqb_spec r row) as [->|Q]; [now injection Hr as <-|eauto].
      * right. sm. rewrite Cu. split; [lia|]. split; trivial. split; trivial. split; [lia|]. intros i rw Hi. destruct (Nat.eq_dec i (N.to_nat (row mod rp))) as [->|Hn].
        -- unfold row_at in Rb. rewrite Hi in Rb. subst rw. cbn. rewrite N2Nat.id, <- A1, row_block. split; [now destruct (ants e row)|].
           unfold updated_row, upd_map. now rewrite N.eqb_refl.
        -- specialize (Ob i Hn). unfold row_at in Ob. rewrite Hi in Ob.
           destruct (nth_error (tb s) i) as [rw'|] eqn:Ht.
           ++ assert (rw = rw') by congruence. subst rw'. destruct (U2 i rw Ht) as (V1 & V2). split; trivial. rewrite urow_other; trivial.
              assert (Li : (i < N.to_nat rp)%nat) by (rewrite <- U1; apply nth_error_Some; congruence). destruct (block_row fr (N.of_nat i)) as (_ & Q); [lia|]. intros Q2. rewrite Q2 in Q. lia.
           ++ exfalso. apply nth_error_None in Ht. assert (i < length b2)%nat by (apply nth_error_Some; congruence). lia.
  - rewrite Hc in H. injection H as -> ->. cbn [exec] in E. destruct (_ || _); injection E as <-; unfold notify; sm; constructor; sm; trivial.
    + apply (U_store _ _ _ W0 t); sm; trivial.
    + apply (U_load _ _ _ W0 t); sm; trivial.
      * destruct K as (K1 & K0 & K2 & K3). split; [|split; [discriminate|split; trivial]].
        -- intros b x Hx. cbn in Hx. unfold upd_map in Hx. destruct (N.eqb_spec b (cur s)) as [->|Q]; [injection Hx as <-; auto|eauto].
        -- intros r Hr _. cbn in Hr. unfold upd_map in Hr. destruct (N.eqb_spec (r / rp) (cur s)) as [Q|Q]; [discriminate|]. now apply K2.
      * intros b' Hb. cbn in Hb. unfold upd_map in Hb. destruct (N.eqb_spec b' (cur s)) as [Q|Q]; [now rewrite Q|]. specialize (B _ Hb). lia.
  - rewrite Hc in H. injection H as -> ->. cbn [exec] in E. injection E as <-. unfold load. sm.
    pose proof (no_last s fr B) as Nl. rewrite (not_cached s fr I Nl). cbv iota. sm. assert (Fr : f fr <> None).
    { destruct T as (row & (<- & A2 & _) & _). now apply (proj1 Rd). }
    pose proof (Hf fr Fr) as Lf. destruct (N.ltb_spec fr (nblk s)) as [_|Q]; [|lia]. cbv iota. sm. rewrite (i_file _ _ I fr Nl). destruct (f fr) as [y|] eqn:Fy; [|easy].
    rewrite Er, En. constructor; sm; trivial. apply (U_tail _ _ _ W0 t); sm; trivial.
    * destruct K as (K1 & K0 & K2 & K3). split; [trivial|split; [discriminate|split; trivial]]. intros r Hr _. apply K2; trivial. congruence.
    * split; trivial. apply ublock_decoded; trivial. intros r Hr. apply K; [now rewrite Hr|congruence].
  - rewrite Hc in H. injection H as -> ->. cbn [exec] in E. destruct (_ || _); injection E as <-; unfold notify; sm; constructor; sm; trivial.
    + apply U_cstore; sm; trivial.
    + apply U_closed; sm; trivial; [now left|].
      destruct K as (K1 & K0 & K2 & K3). split; [|split; [discriminate|split; trivial]].
      * intros b x Hx. cbn in Hx. unfold upd_map in Hx. destruct (N.eqb_spec b (cur s)) as [->|Q]; [injection Hx as <-; auto|eauto].
      * intros r Hr _. cbn in Hr. unfold upd_map in Hr. destruct (N.eqb_spec (r / rp) (cur s)) as [Q|Q]; [discriminate|]. now apply K2.
  - destruct H as [H|[H|H]]; rewrite Hc in H; try discriminate; injection H as -> ->; cbn [exec] in E.
    + pose proof (i_phase _ _ I) as P. rewrite Hc in P.
      destruct (workers s) eqn:Ew.
      * destruct (cache s) eqn:Ec; injection E as <-; constructor; sm; trivial; try (apply U_closed; sm; trivial; now (left + right; right)).
        inversion P; subst; try (match goal with H : maybe_store ?st ++ _ = _ |- _ => destruct st; discriminate end); exfalso; match goal with H : rpb s <> 0 -> workers s <> [] |- _ => apply H; congruence end.
      * destruct (cache s) eqn:Ec; injection E as <-; unfold notify; constructor; sm; trivial; (apply U_closed; sm; trivial); [right; now left|now left].
    + destruct (forallb _ _); [|discriminate]. injection E as <-. constructor; sm; trivial. apply U_closed; sm; trivial. right. now right.
Qed.

Lemma ucode_core W fr (s : state e) : ucode W fr s -> exists W0, core W0 s.
Proof. intros []; eauto. Qed.

(** a block that waits can be encoded *)
Lemma picked_block W fr (s : state e) b x : inv f s -> uinv W fr s -> In (WPicked b x) (workers s) -> exists W0, ub W0 b x /\ forall r d, W0 r = Some d -> okd d.
Proof.
  intros I U Hin. destruct (ucode_core _ _ _ (u_code _ _ _ U)) as (W0 & K1 & K0 & K2 & K3). exists W0. split; trivial.
  eapply K1, (i_last _ _ I), (i_picked _ _ I). exact Hin.
Qed.

Lemma uinv_worker W fr (s s' : state e) y k w w' : inv f s -> uinv W fr s -> nth_error (workers s) k = Some w -> wexec y s w = Some (s', w') -> uinv W fr (set_worker s' k w').
Proof.
  intros I U Hw E. pose proof U as [R Er En Nk Mg H].
  destruct w as [| | |b x|b|]; cbn [wexec] in E; unfold pick in E.
  - destruct (stopF s); [|destruct (isWriteItemAvailable (cache s)) as [(b & x)|]]; injection E as <- <-; constructor; sm; trivial; now apply (ucode_ext W fr s).
  - discriminate.
  - destruct (isWriteItemAvailable (cache s)) as [(b & x)|]; injection E as <- <-; constructor; sm; trivial; now apply (ucode_ext W fr s).
  - destruct (picked_block W fr s b x I U (nth_error_In _ _ Hw)) as (W0 & (Ub & Lb) & HW). rewrite Er, En, (ublock_encodable W0 b x HW Ub) in E.
    rewrite Mg in E. destruct (N.leb_spec (nblk s) b) as [Q|Q]; [lia|]. injection E as <- <-. constructor; sm; trivial. now apply (ucode_ext W fr s).
  - injection E as <- <-. unfold notify. constructor; sm; trivial. now apply (ucode_ext W fr s).
  - discriminate.
Qed.

Lemma uinv_step W fr (s s' : state e) : inv f s -> uinv W fr s -> step s s' -> code s <> [] \/ code s' = [] -> uinv W fr s'.
Proof.
  intros I U St Nc. inversion St as [? Si|a R0 C0 C1 A|j Hj|Hj|j H1 H2 H3]; subst.
  - inversion Si as [junk i c ? _ Hc Mw E J|j w y s1 w1 _ Hw Hy E]; subst; [eapply uinv_main; eauto|eapply uinv_worker; eauto].
  - destruct Nc as [Nc|Nc]; [congruence|]. destruct a; discriminate.
  - destruct U. constructor; sm; trivial. now apply (ucode_ext W fr s).
  - destruct U. constructor; sm; trivial. now apply (ucode_ext W fr s).
  - destruct U. constructor; sm; trivial; [lia|]. now apply (ucode_ext W fr s).
Qed.

Lemma updating_reach W b (s : state e) : updating f nb rp na ok okd W b s -> reach (opened e f nb rp na) s.
Proof.
  intros H. induction H as [|W b s row d H IH R C0 C1 L O Lb Ld|W b s row H IH R C0 C1 L O Lb|W b s H IH R C0 C1|W b s s' H IH St Nc]; [constructor|..]; eapply reach_step; eauto; now constructor.
Qed.

Lemma S0 : starts (opened e f nb rp na).
Proof. now constructor. Qed.

Lemma idle_only W fr (s : state e) : uinv W fr s -> code s = [] -> closed s = false -> core W s /\ buf W fr s.
Proof.
  intros [R Er En Nk Mg H] C0 C1.
  destruct H as [H C K B|row A H C K B|W0 row d A Ew L H C K B|W0 t T H Cu C K U B|W0 t T H C K Ch Cu U B|W0 t T H C K Ch B|H C K Ch U B|H C K Ch]; try congruence.
  - now split.
  - destruct H as [H|[H|H]]; congruence.
  - destruct H as [H|H]; congruence.
Qed.

Lemma buf_more W fr fr' (s : state e) : buf W fr s -> fr <= fr' -> buf W fr' s.
Proof. intros [B|(B1 & B2)] L; [now left|right]. split; [lia|trivial]. Qed.

Lemma uinv_updating W b (s : state e) : updating f nb rp na ok okd W b s -> uinv W b s.
Proof.
  intros H. induction H as [|W b s row d H IH R C0 C1 L O Lb Ld|W b s row H IH R C0 C1 L O Lb|W b s H IH R C0 C1|W b s s' H IH St Nc].
  - constructor; trivial; [apply N.le_refl|]. apply U_idle; trivial; [now left| |].
    + split; [discriminate|]. split; [discriminate|]. split; [trivial|discriminate].
    + left. now repeat split.
  - destruct (idle_only _ _ _ IH C0 C1) as (K & B). destruct IH as [_ Er En Nk Mg _]. constructor; sm; trivial.
    apply (U_put _ _ _ W row d); sm; trivial; [now repeat split|now left|]. now apply (buf_more W b).
  - destruct (idle_only _ _ _ IH C0 C1) as (K & B). destruct IH as [_ Er En Nk Mg _]. constructor; sm; trivial.
    apply (U_get _ _ _ row); sm; trivial; [now repeat split|now left|]. now apply (buf_more W b).
  - destruct (idle_only _ _ _ IH C0 C1) as (K & B). destruct IH as [_ Er En Nk Mg _]. constructor; sm; trivial. apply U_idle; sm; trivial. now right.
  - apply (uinv_step W b s); trivial. apply (inv_reach (opened e f nb rp na)); trivial; [exact S0|now apply (updating_reach W b)|apply IH].
Qed.

(** ** Results *)
(** nothing fails *)
Lemma update_running W b (s : state e) : updating f nb rp na ok okd W b s -> status s = Running.
Proof. intros H. apply (uinv_updating W b s H). Qed.

(** a row is read as it is now *)
Lemma update_answers W b (s s' : state e) row a : updating f nb rp na ok okd W b s -> istep s s' -> outs s' = (row, a) :: outs s ->
  exists v, a = AVals v /\ urow W row = Some v.
Proof.
  intros H St Ho. pose proof (uinv_updating W b s H) as [R Er En Nk Mg U].
  assert (Nn : forall (x : N * answer (data e)) l, l <> x :: l) by (intros x l Q; apply (f_equal (@length _)) in Q; cbn in Q; lia).
  inversion St as [junk i c ? _ Hc Mw E J|j w y s1 w1 _ Hw Hy E]; subst.
  2:{ exfalso. apply (Nn (row, a) (outs s)). rewrite <- Ho. destruct w as [| | |b' x|b'|]; cbn [wexec] in E; unfold pick in E;
      repeat match type of E with
      | (if ?b then _ else _) = Some _ => destruct b
      | match match ?b with _ => _ end with _ => _ end = Some _ => destruct b
      | match ?b with _ => _ end = Some _ => destruct b
      end; try discriminate; injection E as <- <-; reflexivity. }
  assert (X : (exists r, i = IGet r) \/ (exists r, i = IRead r) \/ outs s' = outs s).
  { destruct i; [..|right; left; eauto|right|right|right|right|right|right|right|right|right]; try (now left; eauto); right; try right; cbn [exec] in E;
      repeat match type of E with
      | (if ?b then _ else _) = Some _ => destruct b
      | match ?b with _ => _ end = Some _ => destruct b
      end; try discriminate; injection E as <-; unfold put_buffer, load, notify; cbv zeta;
      repeat match goal with
      | |- context [if ?b then _ else _] => destruct b
      | |- context [match ?b with _ => _ end] => destruct b
      end; reflexivity. }
  destruct X as [(r & ->)|[(r & ->)|X]]; [| |exfalso; apply (Nn (row, a) (outs s)); congruence].
  - exfalso. destruct U as [H' C K B|row' A H' C K B|W0 row' d A Ew L H' C K B|W0 t T H' Cu C K U B|W0 t T H' C K Ch Cu U B|W0 t T H' C K Ch B|H' C K Ch U B|H' C K Ch]; rewrite Hc in H'.
    + destruct H' as [H'|H']; discriminate.
    + destruct H' as [H'|[H'|H']]; try discriminate. injection H' as -> ->. cbn [exec] in E. rewrite Er in E. destruct (N.eqb_spec rp 0); [easy|].
      destruct A as (A1 & A2 & A3). rewrite A1 in E. destruct (N.leb_spec (nblk s) b) as [Lb|Lb]; [assert (b < nb) by (rewrite <- A1; apply Hf, (proj1 Rd), A2); lia|].
      injection E as <-. now apply (Nn (row, a) (outs s)).
    + destruct H' as [H'|H']; discriminate.
    + injection H' as <- ->. destruct T as (? & _ & [(T & _)|(? & T & _)]); discriminate.
    + discriminate.
    + discriminate.
    + discriminate.
    + destruct H' as [H'|[H'|H']]; discriminate.
  - destruct U as [H' C K B|row' A H' C K B|W0 row' d A Ew L H' C K B|W0 t T H' Cu C K U B|W0 t T H' C K Ch Cu U B|W0 t T H' C K Ch B|H' C K Ch U B|H' C K Ch]; rewrite Hc in H'; try discriminate;
      try (destruct H' as [H'|H']; discriminate); try (destruct H' as [H'|[H'|H']]; discriminate).
    injection H' as <- ->. destruct T as (r' & (A1 & A2 & A3) & [(T & ->)|(? & T & _)]); [|discriminate]. injection T as <-. cbn [exec] in E. rewrite Er in E. unfold GetData in E.
    destruct (nth_error (tb s) (N.to_nat (r mod rp))) as [rw|] eqn:G.
    + injection E as <-. injection Ho as -> <-. eexists. split; [reflexivity|]. destruct U as ((U1 & U2) & _). destruct (U2 _ _ G) as (_ & Q). rewrite N2Nat.id, <- A1, row_block in Q. exact Q.
    + injection E as <-. exfalso. now apply (Nn (row, a) (outs s)).
Qed.

(** what the file holds in the end: blocks without rows that were put are as they were,
    the others are encoded with all their rows *)
Lemma update_closed W b (s : state e) : updating f nb rp na ok okd W b s -> closed s = true -> code s = [] ->
  (forall b', (forall r, r / rp = b' -> W r = None) -> file s b' = f b') /\
  (forall r, W r <> None -> exists x y, file s (r / rp) = Some y /\ enc e rp na x y /\ ublock W (r / rp) x).
Proof.
  intros H Cl C0. pose proof (uinv_updating W b s H) as [R Er En Nk Mg U].
  destruct (on_disk _ s NT S0 (updating_reach W b s H) R Cl C0) as (_ & _ & D1 & D2). cbn in D2. rewrite Er, En in D1.
  assert (K : core W s /\ changed s = false).
  { destruct U as [H' C K B|row' A H' C K B|W0 row' d A Ew L H' C K B|W0 t T H' Cu C K U B|W0 t T H' C K Ch Cu U B|W0 t T H' C K Ch B|H' C K Ch U B|H' C K Ch]; try congruence. now split. }
  destruct K as ((K1 & _ & K2 & _) & Ch). split.
  - intros b' Hn. destruct (last s b') as [x|] eqn:El; [|auto]. destruct (K1 _ _ El) as (_ & r & Hr & Hw). now destruct Hw; apply Hn.
  - intros r Hr. destruct (last s (r / rp)) as [x|] eqn:El.
    + destruct (D1 _ _ El) as (y & Y1 & Y2). destruct (K1 _ _ El) as ((K3 & _) & _). eauto.
    + destruct Hr. apply K2; trivial. congruence.
Qed.

(** the calls come to an end *)
Lemma update_finishes W b (s : state e) : inhabited (bytes e) ->
  (forall W b x, (forall r d, W r = Some d -> okd d) -> ublock W b x -> exists y, enc e rp na x y) ->
  updating f nb rp na ok okd W b s -> finishes s.
Proof.
  intros Inh En H. apply (call_finishes_if (opened e f nb rp na) _ (updating f nb rp na ok okd W b)); trivial.
  - exact S0.
  - intros s1 s2 H1 Nc St. eapply ud_step; [exact H1|now constructor|now left].
  - intros s1 H1 R1 b' x Hin Ex. pose proof (uinv_updating W b s1 H1) as U.
    destruct (picked_block W b s1 b' x (inv_reach _ _ NT S0 (updating_reach W b s1 H1) R1) U Hin) as (W0 & (Ub & _) & HW).
    rewrite (u_rpb _ _ _ U), (u_nant _ _ _ U). eauto.
  - now apply (updating_reach W b).
  - pose proof (uinv_updating W b s H) as U. pose proof (inv_reach _ _ NT S0 (updating_reach W b s H) (u_run _ _ _ U)) as I.
    destruct U as [R Er En' Nk Mg U]. left. split; trivial.
    destruct U as [H' C K B|row' A H' C K B|W0 row' d A Ew L H' C K B|W0 t T H' Cu C K U B|W0 t T H' C K Ch Cu U B|W0 t T H' C K Ch B|H' C K Ch U B|H' C K Ch];
      try (destruct T as (? & _ & [(-> & _)|(? & -> & _)])); repeat (destruct H' as [H'|H']); rewrite H'; cbn; intuition discriminate.
Qed.
End update.
