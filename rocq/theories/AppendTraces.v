(** A run in which rows are put at the end of a stored table, used as an example. *)
From Verif Require Import Base BaseLemmas Floats TimeBlockBuffer BytePacker File StMan StManSpec.
From Verif Require Import BitStream StochasticEncoder TimeBlockEncoders TbeSpec Weights WeightSpec TbeExamples AfExamples PropBlock Block Column ColumnSpec ColumnOrder StoredColumn StoredTraces System SystemSpec SystemTraces UpdateSpec RewriteSpec AppendSpec SessionSpec UpdateTraces.
Local Open Scope N_scope.

Section run.
Context (cfg : nat -> coldef) (T : table) (nt : nat) (g : forall i, rand (codec_of (cfg i))) (sv : nat -> N) (K K2 : N) (m : stman) (D2 : forall i, N -> list (data (colenv cfg T nt i))).
Lemma ymoves_appending n : forall ks S, sys_appending cfg T nt K K2 m D2 ks S -> sys_appending cfg T nt K K2 m D2 ks (ymoves cfg T nt g sv n S).
Proof. induction n as [|n IH]; intros ks S H; cbn [ymoves]; trivial. destruct (ynext cfg T nt g sv S) as [S'|] eqn:E; trivial. apply IH. eapply sa_move; eauto. exact (ynext_move cfg T nt g sv (fun _ _ => []) 0 _ _ E). Qed.
Lemma ywrites_appending l : forall ks S ks' S', sys_appending cfg T nt K K2 m D2 ks S -> ywrites cfg T nt g sv D2 K2 l ks S = Some (ks', S') -> sys_appending cfg T nt K K2 m D2 ks' S'.
Proof.
  induction l as [|a l IH]; intros ks S ks' S' H; cbn [ywrites]; [now intros [= <- <-]|]. destruct a as [i|i row|i|n]; try discriminate.
  - destruct (ycall _ _ _ _ _) as [S1|] eqn:E; [|discriminate]. apply (ycall_call cfg T nt g sv (fun _ _ => []) 0) in E; [|intros Q; apply andb_true_iff in Q as (_ & Q); now apply N.ltb_lt|discriminate].
    destruct E as (Q & E). apply andb_true_iff in Q as (Q & _). apply N.ltb_lt in Q. apply IH. exact (sa_put cfg T nt K K2 m D2 ks S S1 i H Q E).
  - destruct (ycall _ _ _ _ _) as [S1|] eqn:E; [|discriminate]. apply (ycall_call cfg T nt g sv (fun _ _ => []) 0) in E; [|intros _; exact Logic.I|reflexivity].
    destruct E as (Q & E). apply IH. apply (sa_close cfg T nt K K2 m D2 ks S S1 i H); trivial. intros j Hj. apply N.eqb_eq. exact (all_cols_ok cfg T nt g sv D2 K2 S _ Q j Hj).
  - apply IH. now apply ymoves_appending.
Qed.
Definition yappended (l : list yact) : (nat -> N) * sys cfg T nt :=
  match ywrites cfg T nt g sv D2 K2 l (fun _ => K) (sopen cfg T nt m) with Some r => r | None => (fun _ => K, sopen cfg T nt m) end.
Lemma yappended_appending l : sys_appending cfg T nt K K2 m D2 (fst (yappended l)) (snd (yappended l)).
Proof. unfold yappended. destruct (ywrites _ _ _ _ _ _ _ l _ _) as [(ks & S)|] eqn:E; [exact (ywrites_appending l _ _ _ _ (sa_open cfg T nt K K2 m D2) E)|exact (sa_open cfg T nt K K2 m D2)]. Qed.
End run.

(** The table of [SystemTraces], 6 rows in blocks of 4, opened again; rows 6 to 10 are put. *)
Definition aD (i : nat) (r : N) : list (data (colenv ycfg exT 2 i)) := yD i (r - 6).
Definition aputs : list yact := yfew 0 1 ++ yfew 1 0 ++ yfew 0 0 ++ yfew 1 1 ++ [YPut 0; YMoves 3; YPut 1; YMoves 5; YMoves 40; YShut 0; YMoves 40; YShut 1; YMoves 40].
Definition awrote := yappended ycfg exT 2 yg yv 6 11 yopened aD aputs.
Definition aend : sys ycfg exT 2 := snd awrote.
Lemma aend_appending : sys_appending ycfg exT 2 6 11 yopened aD (fst awrote) aend.
Proof. exact (yappended_appending ycfg exT 2 yg yv 6 11 yopened aD aputs). Qed.
Lemma aend_closed : all_closed aend.
Proof. apply (closedb_ok ycfg exT 2 yg yv yD 6). vm_compute. reflexivity. Qed.
Lemma aput_ok i r : put_ok ycfg exT 2 i (aD i r).
Proof.
  split; [apply (ylong i)|]. pose proof (ydata_ok i) as H. destruct i as [|i]; [exact Logic.I|]. apply (H (r - 6)).
Qed.
