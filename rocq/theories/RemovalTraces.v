(** What decompress does with the table of [SystemTraces]: all rows of the data are read,
    the column is removed, and all rows of the weights are read. *)
From Verif Require Import Base BaseLemmas Floats TimeBlockBuffer BitStream BytePacker File StMan StManSpec.
From Verif Require Import StochasticEncoder TimeBlockEncoders TbeExamples Weights WeightSpec Block Column ColumnSpec StoredColumn StoredTraces System SystemSpec SystemTraces UpdateSpec SessionSpec SystemWrite SystemSessions UpdateTraces DamageTraces Removal.
Local Open Scope N_scope.

Definition rgets : list yact := flat_map (fun r => [YGet 0 r; YMoves 20]) [0; 1; 2; 3; 4; 5].
(** the data read *)
Definition rdata : sys ycfg exT 2 := yread ycfg exT 2 yg yv (fun _ => true) rgets (sopen ycfg exT 2 yopened).
Definition rman : stman := match removeColumn yopened 0 with Ok m => m | _ => yopened end.
(** the weights are column 0 now *)
Notation rcfg := (without 0 ycfg).
Definition rweights : sys rcfg exT 2 :=
  yread rcfg exT 2 (fun j => yg (skip 0 j)) (fun _ => 0) (fun _ => true) rgets (sremove ycfg exT 2 0 rdata rman).

Lemma ropened : opened_from yman3 yopened.
Proof.
  exists yagain, 6, (opened_twice 6 yagain). split; [exact yreopens|]. apply opened_of_ok. vm_compute. reflexivity.
Qed.
Lemma rremoved : removeColumn yopened 0 = Ok rman.
Proof.
  assert (X : forall m, (0 <? length (columns m))%nat = true -> removeColumn m 0 = Ok (match removeColumn m 0 with Ok m' => m' | _ => m end)) by (intros m H; unfold removeColumn; now rewrite H).
  apply X. vm_compute. reflexivity.
Qed.
Definition any {cfg T nt} (ok ok' : N -> Prop) (H : forall r, ok r -> ok' r) S0 S (R : @sys_reading cfg T nt ok S0 S) : sys_reading ok' S0 S.
Proof. induction R; [constructor|eapply sr_get; eauto|eapply sr_close; eauto|eapply sr_move; eauto|eapply sr_wake; eauto]. Qed.
Lemma rdata_reading : sys_reading (fun _ => True) (sopen ycfg exT 2 yopened) rdata.
Proof. apply (any (fun r => true = true)); [trivial|]. exact (yread_reading ycfg exT 2 yg yv yD 6 (fun _ => true) rgets (sopen ycfg exT 2 yopened)). Qed.
Lemma rweights_reading : sys_reading (fun _ => True) (sremove ycfg exT 2 0 rdata rman) rweights.
Proof.
  apply (any (fun r => true = true)); [trivial|].
  exact (yread_reading rcfg exT 2 (fun j => yg (skip 0 j)) (fun _ => 0) (fun j => yD (skip 0 j)) 6 (fun _ => true) rgets (sremove ycfg exT 2 0 rdata rman)).
Qed.
