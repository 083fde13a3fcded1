(** Two more sessions with a stored table, used as an example. *)
From Verif Require Import Base BaseLemmas Floats TimeBlockBuffer BytePacker File StMan StManSpec.
From Verif Require Import BitStream StochasticEncoder TimeBlockEncoders TbeSpec Weights WeightSpec TbeExamples AfExamples PropBlock Block Column ColumnSpec ColumnOrder StoredColumn StoredTraces System SystemSpec SystemTraces UpdateSpec RewriteSpec AppendSpec SessionSpec UpdateTraces HistorySpec.
Local Open Scope N_scope.

(** The table of [SystemTraces] opened again: the weights of row 0 become large; closed,
    opened, and they become what they were. *)
Definition hacts (l : list Z) : list (uact ycfg exT 2) := [zweights 0 l; UMoves 20; UShut 0; UMoves 40; UShut 1; UMoves 40].
Definition hlarge : list Z := [131072; 131072; 131072; 131072]%Z.
Definition hsmall : list Z := [2; 2; 0; 0]%Z.
Definition hrun1 := yupdated ycfg exT 2 yg yv 6 yopened (hacts hlarge).
Definition hend1 : sys ycfg exT 2 := u_sys hrun1.
Definition hagain : stman := again (fil (man ycfg exT 2 hend1)).
Definition hopened : stman := opened_of 6 hagain.
Definition hrun2 := yupdated ycfg exT 2 yg yv 6 hopened (hacts hsmall).
Definition hend2 : sys ycfg exT 2 := u_sys hrun2.

Lemma hreopens : reopens (man ycfg exT 2 hend1) hagain.
Proof. apply again_reopens. vm_compute. reflexivity. Qed.
Lemma hopened_from : opened_from (man ycfg exT 2 hend1) hopened.
Proof. apply (opensb_ok _ hagain 6 hreopens). vm_compute. reflexivity. Qed.
Lemma hend1_closed : all_closed hend1.
Proof. apply (closedb_ok ycfg exT 2 yg yv yD 6). vm_compute. reflexivity. Qed.
Lemma hend2_closed : all_closed hend2.
Proof. apply (closedb_ok ycfg exT 2 yg yv yD 6). vm_compute. reflexivity. Qed.
Lemma hrun1_updating : sys_updating ycfg exT 2 (fun r => r < 6) yopened (u_puts hrun1) (u_at hrun1) hend1.
Proof. exact (yupdated_updating ycfg exT 2 yg yv 6 yopened (hacts hlarge)). Qed.
Lemma hrun2_updating : sys_updating ycfg exT 2 (fun r => r < 6) hopened (u_puts hrun2) (u_at hrun2) hend2.
Proof. exact (yupdated_updating ycfg exT 2 yg yv 6 hopened (hacts hsmall)). Qed.
Lemma hrun1_puts : u_puts hrun1 = puts_of ycfg exT 2 (hacts hlarge) [].
Proof. apply yupdated_puts. vm_compute. reflexivity. Qed.
Lemma hrun2_puts : u_puts hrun2 = puts_of ycfg exT 2 (hacts hsmall) [].
Proof. apply yupdated_puts. vm_compute. reflexivity. Qed.

(** only row 0 of column 1 is put *)
Lemma hputs_here l : last_put ycfg exT 2 (puts_of ycfg exT 2 (hacts l) []) 1 0 = Some (map hf l).
Proof. reflexivity. Qed.
Lemma hputs_other l r : r <> 0 -> last_put ycfg exT 2 (puts_of ycfg exT 2 (hacts l) []) 1 r = None.
Proof. intros H. cbn. destruct r; [easy|reflexivity]. Qed.
Lemma hputs_data l r : last_put ycfg exT 2 (puts_of ycfg exT 2 (hacts l) []) 0 r = None.
Proof. reflexivity. Qed.

Lemma haged r : r <> 0 -> r / 4 = 0 -> aged ycfg exT 2 4 1 r 6 (man ycfg exT 2 yend) 2 6 (man ycfg exT 2 hend2).
Proof.
  intros H0 H4. apply (ag_changed ycfg exT 2 4 1 r 6 (man ycfg exT 2 yend) 1 6 (man ycfg exT 2 hend1) hopened (u_puts hrun2) (u_at hrun2) hend2 0).
  - apply (ag_changed ycfg exT 2 4 1 r 6 (man ycfg exT 2 yend) 0 6 (man ycfg exT 2 yend) yopened (u_puts hrun1) (u_at hrun1) hend1 0).
    + constructor.
    + exact yopened_from.
    + exact hrun1_updating.
    + exact hend1_closed.
    + rewrite H4. reflexivity.
    + rewrite hrun1_puts, hputs_here. discriminate.
    + rewrite hrun1_puts. now apply hputs_other.
  - exact hopened_from.
  - exact hrun2_updating.
  - exact hend2_closed.
  - rewrite H4. reflexivity.
  - rewrite hrun2_puts, hputs_here. discriminate.
  - rewrite hrun2_puts. now apply hputs_other.
Qed.
Lemma hkept r : aged ycfg exT 2 4 0 r 6 (man ycfg exT 2 yend) 0 6 (man ycfg exT 2 hend2).
Proof.
  apply (ag_updated ycfg exT 2 4 0 r 6 (man ycfg exT 2 yend) 0 6 (man ycfg exT 2 hend1) hopened (u_puts hrun2) (u_at hrun2) hend2).
  - apply (ag_updated ycfg exT 2 4 0 r 6 (man ycfg exT 2 yend) 0 6 (man ycfg exT 2 yend) yopened (u_puts hrun1) (u_at hrun1) hend1).
    + constructor.
    + exact yopened_from.
    + exact hrun1_updating.
    + exact hend1_closed.
    + intros r' _. rewrite hrun1_puts. apply hputs_data.
  - exact hopened_from.
  - exact hrun2_updating.
  - exact hend2_closed.
  - intros r' _. rewrite hrun2_puts. apply hputs_data.
Qed.
