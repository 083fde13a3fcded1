(** Runs in which rows of a stored table are read and overwritten going back and forth,
    used as examples. *)
From Verif Require Import Base BaseLemmas Floats TimeBlockBuffer BytePacker File StMan StManSpec.
From Verif Require Import BitStream StochasticEncoder TimeBlockEncoders TbeSpec Weights WeightSpec TbeExamples AfExamples PropBlock Block Column ColumnSpec ColumnOrder StoredColumn StoredTraces System SystemSpec SystemTraces UpdateSpec RewriteSpec SessionSpec UpdateTraces.
Local Open Scope N_scope.

Section may.
Context {A : Type} (rp : N).
Definition atb (l : list (rowcall A)) (b : N) : bool := match open_block rp l with Some b' => b' =? b | None => false end.
Fixpoint unreadb (l : list (rowcall A)) (b : N) : bool :=
  match l with
  | [] => false
  | CPut r _ :: l => (r / rp =? b) || unreadb l b
  | CGet r :: l => negb ((r / rp =? b) && negb (atb l b)) && unreadb l b
  end.
Lemma atb_ok l b : atb l b = true <-> open_block rp l = Some b.
Proof. unfold atb. destruct (open_block rp l) as [b'|]; [|easy]. rewrite N.eqb_eq. split; congruence. Qed.
Lemma unreadb_ok l b : unread rp l b -> unreadb l b = true.
Proof.
  induction l as [|[r d|r] l IH]; cbn; [easy|..].
  - intros [H|H]; [now rewrite (proj2 (N.eqb_eq _ _) H)|]. rewrite IH by trivial. apply Bool.orb_true_r.
  - intros (H1 & H2). rewrite IH by trivial. rewrite Bool.andb_true_r. destruct (N.eqb_spec (r / rp) b) as [Q|_]; [|reflexivity]. cbn [andb negb].
    destruct (atb l b) eqn:E; [reflexivity|]. exfalso. apply H1. split; trivial. intros Q2. apply atb_ok in Q2. congruence.
Qed.
Definition may_putb (l : list (rowcall A)) (r : N) : bool := atb l (r / rp) || negb (unreadb l (r / rp)).
Lemma may_putb_ok l r : may_putb l r = true -> may_put rp l r.
Proof.
  unfold may_putb, may_put. intros H. apply Bool.orb_true_iff in H as [H|H]; [left; now apply atb_ok|right]. intros Q. apply unreadb_ok in Q. rewrite Q in H. discriminate.
Qed.
End may.

Section run.
Context (cfg : nat -> coldef) (T : table) (nt : nat) (g : forall i, rand (codec_of (cfg i))) (sv : nat -> N) (K : N) (m : stman).
Notation sys := (sys cfg T nt). Notation colenv := (colenv cfg T nt). Notation calls_of := (calls_of cfg T nt).

Record wstate := Ws { w_calls : list (table_call cfg T nt); w_sys : sys }.
Fixpoint ywrites (l : list (uact cfg T nt)) (u : wstate) : option wstate :=
  match l with
  | [] => Some u
  | UMoves n :: l => ywrites l (Ws (w_calls u) (ymoves cfg T nt g sv n (w_sys u)))
  | UPut i row d :: l => match ycall cfg T nt (w_sys u) i (Put (e := colenv i) row d) ((row <? 2 ^ 32) && ((row <? K) && may_putb (rowsPerBlock m) (calls_of (w_calls u) i) row && put_okb cfg T nt i d)) false with
      | Some S' => ywrites l (Ws (existT _ i (CPut row d) :: w_calls u) S') | None => None end
  | UGet i row :: l => match ycall cfg T nt (w_sys u) i (Get (e := colenv i) row) ((row <? 2 ^ 32) && (row <? K)) false with
      | Some S' => ywrites l (Ws (existT _ i (CGet row) :: w_calls u) S') | None => None end
  | UShut i :: l => match ycall cfg T nt (w_sys u) i Shutdown true true with Some S' => ywrites l (Ws (w_calls u) S') | None => None end
  end.

Notation ok := (fun r => r < K).
Lemma ymoves_rewriting n : forall l S, sys_rewriting cfg T nt ok m l S -> sys_rewriting cfg T nt ok m l (ymoves cfg T nt g sv n S).
Proof. induction n as [|n IH]; intros l S H; cbn [ymoves]; trivial. destruct (ynext cfg T nt g sv S) as [S'|] eqn:E; trivial. apply IH. eapply sw_move; eauto. exact (ynext_move cfg T nt g sv (fun _ _ => []) 0 _ _ E). Qed.
Lemma ywrites_rewriting l : forall u u', sys_rewriting cfg T nt ok m (w_calls u) (w_sys u) -> ywrites l u = Some u' -> sys_rewriting cfg T nt ok m (w_calls u') (w_sys u').
Proof.
  induction l as [|a l IH]; intros u u' H; cbn [ywrites]; [now intros [= <-]|]. destruct a as [i row d|i row|i|n].
  - destruct (ycall _ _ _ _ _ _ _ _) as [S1|] eqn:E; [|discriminate]. apply (ycall_call cfg T nt g sv (fun _ _ => []) 0) in E; [|intros Q; apply andb_true_iff in Q as (Q & _); now apply N.ltb_lt|discriminate].
    destruct E as (Q & E). apply andb_true_iff in Q as (_ & Q). apply andb_true_iff in Q as (Q & Q2). apply andb_true_iff in Q as (Q & Q1).
    apply IH. cbn [w_calls w_sys]. eapply sw_put; eauto; [now apply N.ltb_lt|now apply may_putb_ok|now apply put_okb_ok].
  - destruct (ycall _ _ _ _ _ _ _ _) as [S1|] eqn:E; [|discriminate]. apply (ycall_call cfg T nt g sv (fun _ _ => []) 0) in E; [|intros Q; apply andb_true_iff in Q as (Q & _); now apply N.ltb_lt|discriminate].
    destruct E as (Q & E). apply andb_true_iff in Q as (_ & Q).
    apply IH. cbn [w_calls w_sys]. eapply sw_get; eauto. now apply N.ltb_lt.
  - destruct (ycall _ _ _ _ _ _ _ _) as [S1|] eqn:E; [|discriminate]. apply (ycall_call cfg T nt g sv (fun _ _ => []) 0) in E; [|intros _; exact Logic.I|reflexivity].
    destruct E as (Q & E). apply IH. cbn [w_calls w_sys]. eapply sw_close; eauto.
  - apply IH. cbn [w_calls w_sys]. now apply ymoves_rewriting.
Qed.
Definition wstart : wstate := Ws [] (sopen cfg T nt m).
Definition ywrote_over (l : list (uact cfg T nt)) : wstate := match ywrites l wstart with Some u => u | None => wstart end.
Lemma ywrote_rewriting l : sys_rewriting cfg T nt ok m (w_calls (ywrote_over l)) (w_sys (ywrote_over l)).
Proof. unfold ywrote_over. destruct (ywrites l wstart) as [u|] eqn:E; [|constructor]. eapply ywrites_rewriting; eauto. constructor. Qed.
(** the calls *)
Fixpoint calls_in (l : list (uact cfg T nt)) (p : list (table_call cfg T nt)) : list (table_call cfg T nt) :=
  match l with [] => p | UPut i row d :: l => calls_in l (existT _ i (CPut row d) :: p) | UGet i row :: l => calls_in l (existT _ i (CGet row) :: p) | _ :: l => calls_in l p end.
Lemma ywrites_calls l : forall u u', ywrites l u = Some u' -> w_calls u' = calls_in l (w_calls u).
Proof.
  induction l as [|a l IH]; intros u u'; cbn [ywrites calls_in]; [now intros [= <-]|]. destruct a as [i row d|i row|i|n]; [| | |intros E; now apply IH in E];
    (destruct (ycall _ _ _ _ _ _ _ _) as [S1|]; [|discriminate]; intros E; now apply IH in E).
Qed.
Lemma ywrote_calls l : match ywrites l wstart with Some _ => true | None => false end = true -> w_calls (ywrote_over l) = calls_in l [].
Proof. unfold ywrote_over. destruct (ywrites l wstart) as [u|] eqn:E; [|discriminate]. intros _. now apply ywrites_calls in E. Qed.
End run.
Arguments w_calls {cfg T nt}. Arguments w_sys {cfg T nt}.

(** The table of [SystemTraces], opened again.  The weights of row 0 (block 0) and row 4
    (block 1) are put; row 0 is read; then the weights of row 1 (block 0) are put, and row 4
    and row 1 are read. *)
Definition qacts : list (uact ycfg exT 2) :=
  [zweights 0 [16; 16; 4; 4]%Z; UMoves 20; zweights 4 [6; 6; 2; 2]%Z; UMoves 20; UGet 1 0; UMoves 40; zweights 1 [3; 3; 5; 5]%Z; UMoves 20; UGet 1 1; UMoves 20; UGet 1 4; UMoves 40;
   UGet 1 1; UMoves 40; zdata 4 [(1, 2); (3, 4)]%Z; UMoves 20; UGet 0 0; UMoves 40; UGet 0 4; UMoves 40].
Definition qshut : list (uact ycfg exT 2) := qacts ++ [UShut 1; UMoves 40; UShut 0; UMoves 40].
Definition qmid := ywrote_over ycfg exT 2 yg yv 6 yopened qacts.
Definition qrun := ywrote_over ycfg exT 2 yg yv 6 yopened qshut.
Definition qend : sys ycfg exT 2 := w_sys qrun.
Definition qouts := (map (show1 show2) (outs (cst ycfg exT 2 qend 0)), map (show1 show) (outs (cst ycfg exT 2 qend 1))).
Definition mid_idleb (S : sys ycfg exT 2) := all_cols ycfg exT 2 S (fun i => isnil (code (cst ycfg exT 2 S i))).
Lemma mid_idleb_ok S : mid_idleb S = true -> idle S.
Proof. intros H j Hj. apply isnil_eq. exact (all_cols_ok ycfg exT 2 yg yv yD 6 S _ H j Hj). Qed.
Lemma qmid_rewriting : sys_rewriting ycfg exT 2 (fun r => r < 6) yopened (w_calls qmid) (w_sys qmid).
Proof. exact (ywrote_rewriting ycfg exT 2 yg yv 6 yopened qacts). Qed.
Lemma qrun_rewriting : sys_rewriting ycfg exT 2 (fun r => r < 6) yopened (w_calls qrun) qend.
Proof. exact (ywrote_rewriting ycfg exT 2 yg yv 6 yopened qshut). Qed.
Lemma qmid_idle : idle (w_sys qmid).
Proof. apply mid_idleb_ok. vm_compute. reflexivity. Qed.
Lemma qend_closed : all_closed qend.
Proof. apply (closedb_ok ycfg exT 2 yg yv yD 6). vm_compute. reflexivity. Qed.
Lemma qmid_calls : w_calls qmid = calls_in ycfg exT 2 qacts [].
Proof. apply ywrote_calls. vm_compute. reflexivity. Qed.
Ltac qcalls := rewrite qmid_calls; unfold qacts, zweights, zdata; cbn [calls_in calls_of Nat.eq_dec]; lazy beta iota zeta delta [Nat.eq_dec nat_rect nat_rec eq_rect sumbool_rec sumbool_rect f_equal calls_of]; do 2 eexists; cbn [app]; reflexivity.
Lemma qmid_weights : exists d l0, calls_of ycfg exT 2 (w_calls qmid) 1 = CGet 1 :: [CGet 4; CGet 1] ++ CPut 1 d :: l0.
Proof. qcalls. Qed.
Lemma qmid_data : exists d l0, calls_of ycfg exT 2 (w_calls qmid) 0 = CGet 4 :: [CGet 0] ++ CPut 4 d :: l0.
Proof. qcalls. Qed.
