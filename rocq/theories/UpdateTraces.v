(** Runs in which rows of a stored table are read and overwritten, used as examples. *)
From Coq Require Import Reals.
From Flocq Require Import Core BinarySingleNaN.
From Verif Require Import Base BaseLemmas Floats TimeBlockBuffer BytePacker File StMan StManSpec.
From Verif Require Import BitStream StochasticEncoder TimeBlockEncoders TbeSpec Weights WeightSpec TbeExamples AfExamples PropBlock Block Column ColumnSpec ColumnOrder StoredColumn StoredTraces System SystemSpec SystemTraces UpdateSpec SessionSpec.
Local Open Scope N_scope.

Definition nonnegb (x : f32) : bool := match x with B754_zero _ => true | B754_finite s _ _ _ => negb s | _ => false end.
Lemma nonnegb_ok x : nonnegb x = true -> nonneg x.
Proof.
  unfold nonneg. destruct x as [s|s| |s m e B]; cbn [nonnegb]; try discriminate; intros H; (split; [reflexivity|]); [apply Rle_refl|].
  destruct s; [discriminate|]. apply F2R_ge_0. cbn. lia.
Qed.
Definition row_okb (c : coldef) : list (sample (codec_of c)) -> bool := match c with CWeight _ _ _ => forallb nonnegb | _ => fun _ => true end.
Lemma row_okb_ok c d : row_okb c d = true -> row_ok c d.
Proof. destruct c; cbn [row_okb row_ok]; trivial. rewrite forallb_forall. intros H. apply Forall_forall. intros x Hx. apply nonnegb_ok. auto. Qed.

Section run.
Context (cfg : nat -> coldef) (T : table) (nt : nat) (g : forall i, rand (codec_of (cfg i))) (sv : nat -> N) (K : N) (m : stman).
Notation sys := (sys cfg T nt). Notation colenv := (colenv cfg T nt).

(** put a row; read a row; close a column; the next steps of the threads *)
Inductive uact := UPut (i : nat) (row : N) (d : list (data (colenv i))) | UGet (i : nat) (row : N) | UShut (i : nat) | UMoves (n : nat).
Definition put_okb (i : nat) (d : list (data (colenv i))) : bool := (nPol_of (cfg i) * nChan_of (cfg i) <=? length d)%nat && row_okb (cfg i) d.
Lemma put_okb_ok i d : put_okb i d = true -> put_ok cfg T nt i d.
Proof. unfold put_okb. intros H. apply andb_true_iff in H as (H & H1). split; [now apply Nat.leb_le|now apply row_okb_ok]. Qed.

Record ustate := U { u_puts : list (put_call cfg T nt); u_at : nat -> N; u_sys : sys }.
Definition goes (i : nat) (row : N) (bs : nat -> N) : nat -> N := fun j => if (j =? i)%nat then row / rowsPerBlock m else bs j.
Fixpoint yupdates (l : list uact) (u : ustate) : option ustate :=
  match l with
  | [] => Some u
  | UMoves n :: l => yupdates l (U (u_puts u) (u_at u) (ymoves cfg T nt g sv n (u_sys u)))
  | UPut i row d :: l => match ycall cfg T nt (u_sys u) i (Put (e := colenv i) row d) ((row <? 2 ^ 32) && ((row <? K) && (u_at u i <=? row / rowsPerBlock m) && put_okb i d)) false with
      | Some S' => yupdates l (U (existT _ i (row, d) :: u_puts u) (goes i row (u_at u)) S') | None => None end
  | UGet i row :: l => match ycall cfg T nt (u_sys u) i (Get (e := colenv i) row) ((row <? 2 ^ 32) && ((row <? K) && (u_at u i <=? row / rowsPerBlock m))) false with
      | Some S' => yupdates l (U (u_puts u) (goes i row (u_at u)) S') | None => None end
  | UShut i :: l => match ycall cfg T nt (u_sys u) i Shutdown true true with Some S' => yupdates l (U (u_puts u) (u_at u) S') | None => None end
  end.

Notation ok := (fun r => r < K).
Lemma ymoves_updating n : forall l bs S, sys_updating cfg T nt ok m l bs S -> sys_updating cfg T nt ok m l bs (ymoves cfg T nt g sv n S).
Proof. induction n as [|n IH]; intros l bs S H; cbn [ymoves]; trivial. destruct (ynext cfg T nt g sv S) as [S'|] eqn:E; trivial. apply IH. eapply su_move; eauto. exact (ynext_move cfg T nt g sv (fun _ _ => []) 0 _ _ E). Qed.
Lemma yupdates_updating l : forall u u', sys_updating cfg T nt ok m (u_puts u) (u_at u) (u_sys u) -> yupdates l u = Some u' -> sys_updating cfg T nt ok m (u_puts u') (u_at u') (u_sys u').
Proof.
  induction l as [|a l IH]; intros u u' H; cbn [yupdates]; [now intros [= <-]|]. destruct a as [i row d|i row|i|n].
  - destruct (ycall _ _ _ _ _ _ _ _) as [S1|] eqn:E; [|discriminate]. apply (ycall_call cfg T nt g sv (fun _ _ => []) 0) in E; [|intros Q; apply andb_true_iff in Q as (Q & _); now apply N.ltb_lt|discriminate].
    destruct E as (Q & E). apply andb_true_iff in Q as (_ & Q). apply andb_true_iff in Q as (Q & Q2). apply andb_true_iff in Q as (Q & Q1).
    apply IH. cbn [u_puts u_at u_sys]. eapply su_put; eauto; [now apply N.ltb_lt|now apply N.leb_le|now apply put_okb_ok].
  - destruct (ycall _ _ _ _ _ _ _ _) as [S1|] eqn:E; [|discriminate]. apply (ycall_call cfg T nt g sv (fun _ _ => []) 0) in E; [|intros Q; apply andb_true_iff in Q as (Q & _); now apply N.ltb_lt|discriminate].
    destruct E as (Q & E). apply andb_true_iff in Q as (_ & Q). apply andb_true_iff in Q as (Q & Q1).
    apply IH. cbn [u_puts u_at u_sys]. eapply su_get; eauto; [now apply N.ltb_lt|now apply N.leb_le].
  - destruct (ycall _ _ _ _ _ _ _ _) as [S1|] eqn:E; [|discriminate]. apply (ycall_call cfg T nt g sv (fun _ _ => []) 0) in E; [|intros _; exact Logic.I|reflexivity].
    destruct E as (Q & E). apply IH. cbn [u_puts u_at u_sys]. eapply su_close; eauto.
  - apply IH. cbn [u_puts u_at u_sys]. now apply ymoves_updating.
Qed.
(** the rows put *)
Fixpoint puts_of (l : list uact) (p : list (put_call cfg T nt)) : list (put_call cfg T nt) :=
  match l with [] => p | UPut i row d :: l => puts_of l (existT _ i (row, d) :: p) | _ :: l => puts_of l p end.
Lemma yupdates_puts l : forall u u', yupdates l u = Some u' -> u_puts u' = puts_of l (u_puts u).
Proof.
  induction l as [|a l IH]; intros u u'; cbn [yupdates puts_of]; [now intros [= <-]|]. destruct a as [i row d|i row|i|n]; [| | |intros E; now apply IH in E];
    (destruct (ycall _ _ _ _ _ _ _ _) as [S1|]; [|discriminate]; intros E; now apply IH in E).
Qed.
Definition ustart : ustate := U [] (fun _ => 0) (sopen cfg T nt m).
Definition yupdated (l : list uact) : ustate := match yupdates l ustart with Some u => u | None => ustart end.
Lemma yupdated_updating l : sys_updating cfg T nt ok m (u_puts (yupdated l)) (u_at (yupdated l)) (u_sys (yupdated l)).
Proof. unfold yupdated. destruct (yupdates l ustart) as [u|] eqn:E; [|constructor]. eapply yupdates_updating; eauto. constructor. Qed.
Lemma yupdated_puts l : match yupdates l ustart with Some _ => true | None => false end = true -> u_puts (yupdated l) = puts_of l [].
Proof. unfold yupdated. destruct (yupdates l ustart) as [u|] eqn:E; [|discriminate]. intros _. now apply yupdates_puts in E. Qed.
End run.
Arguments UPut {cfg T nt}. Arguments UGet {cfg T nt}. Arguments UShut {cfg T nt}. Arguments UMoves {cfg T nt}.
Arguments u_puts {cfg T nt}. Arguments u_at {cfg T nt}. Arguments u_sys {cfg T nt}.

(** The table of [SystemTraces], opened again: rows of both columns put and read, in both
    blocks; then closed. *)
Definition zdata (row : N) (l : list (Z * Z)) : uact ycfg exT 2 := UPut (cfg := ycfg) (T := exT) (nt := 2) 0%nat row (map (fun z => (hf (fst z), hf (snd z))) l).
Definition zweights (row : N) (l : list Z) : uact ycfg exT 2 := UPut (cfg := ycfg) (T := exT) (nt := 2) 1%nat row (map hf l).
Definition zacts : list (uact ycfg exT 2) :=
  [zweights 3 [2; 2; 1; 1]%Z; UMoves 20; UGet 1 3; UMoves 20; UGet 0 1; UMoves 20; zweights 0 [16; 16; 4; 4]%Z; UMoves 3; UMoves 20; zdata 4 [(1, 2); (3, 4)]%Z; UMoves 20; UGet 0 4; UMoves 20;
   UGet 1 5; UMoves 30; UShut 1; UMoves 40; UShut 0; UMoves 40].
Definition zrun := yupdated ycfg exT 2 yg yv 6 yopened zacts.
Definition zend : sys ycfg exT 2 := u_sys zrun.
Definition zouts := (map (show1 show2) (outs (cst ycfg exT 2 zend 0)), map (show1 show) (outs (cst ycfg exT 2 zend 1))).

(** opening a file again *)
Definition opensb (nr : N) (mo : stman) : bool := match openMan nr mo with Ok m2 => match prepareMan m2 with Ok _ => true | _ => false end | _ => false end.
Lemma opensb_ok m mo nr : reopens m mo -> opensb nr mo = true -> opened_from m (opened_of nr mo).
Proof.
  unfold opensb, opened_of, opened_from. intros R. destruct (openMan nr mo) as [m2| |] eqn:E; try discriminate. destruct (prepareMan m2) as [m3| |] eqn:E3; try discriminate. intros _.
  exists mo, nr, m2. auto.
Qed.

(** The same table, but the symbol buffers of the threads hold the highest symbol of the
    weights (as if the block stored before held that symbol in these rows).  Opened again,
    the weights of both rows of the last block are put. *)
Definition jv (i : nat) : N := match i with O => 0 | _ => 4095 end.
Definition jwrote := ywritten ycfg exT 2 yg jv yD 6 yman yputs.
Definition jend : sys ycfg exT 2 := snd jwrote.
Definition jagain : stman := again (fil (man ycfg exT 2 jend)).
Definition jopened : stman := opened_of 6 jagain.
Definition jsmall : f32 := lit32 1 (-12).
Definition jput (row : N) : uact ycfg exT 2 := UPut (cfg := ycfg) (T := exT) (nt := 2) 1%nat row (repeat jsmall 4).
Definition jacts : list (uact ycfg exT 2) := [jput 4; UMoves 20; jput 5; UMoves 20; UShut 0; UMoves 40; UShut 1; UMoves 40].
Definition jrun := yupdated ycfg exT 2 yg jv 6 jopened jacts.
Definition jdone : sys ycfg exT 2 := u_sys jrun.
Lemma jsmall_nonneg : nonneg jsmall.
Proof. apply nonnegb_ok. vm_compute. reflexivity. Qed.
Lemma jsmall_nonzero : B2R jsmall <> 0%R.
Proof.
  assert (X : match jsmall with B754_finite _ _ _ _ => true | _ => false end = true) by (vm_compute; reflexivity). destruct jsmall as [s|s| |s p e B]; try discriminate.
  cbn [B2R]. apply F2R_neq_0. cbn. destruct s; discriminate.
Qed.
Lemma jdone_rows r : r < 6 -> r / 4 = 1 -> last_put ycfg exT 2 (u_puts jrun) 1 r = Some [jsmall; jsmall; jsmall; jsmall] /\
  option_map (map show) (held_row ycfg exT 2 (man ycfg exT 2 jdone) 1 r) = Some [Num 0; Num 0; Num 0; Num 0].
Proof.
  intros H6 H4. assert (r = 4 \/ r = 5) as C. { pose proof (N.div_mod r 4) as Q. rewrite H4 in Q. pose proof (N.mod_lt r 4). lia. } 
  destruct C as [-> | ->]; (split; [|vm_compute; reflexivity]).
  all: change (u_puts jrun) with (u_puts (yupdated ycfg exT 2 yg jv 6 jopened jacts)); rewrite yupdated_puts by (vm_compute; reflexivity); reflexivity.
Qed.

Lemma ystored : stored_table ycfg exT 2 yman yD 6 (man ycfg exT 2 yend).
Proof. apply (sd_written ycfg exT 2 yman yD 6 (fst ywrote) yend); [apply ywritten_order|]. apply (closedb_ok ycfg exT 2 yg yv yD 6); vm_compute; reflexivity. Qed.
Lemma yopened_from : opened_from (man ycfg exT 2 yend) yopened.
Proof. unfold yopened. apply (opensb_ok _ yagain 6 yreopens). vm_compute. reflexivity. Qed.
Lemma zrun_updating : sys_updating ycfg exT 2 (fun r => r < 6) yopened (u_puts zrun) (u_at zrun) zend.
Proof. exact (yupdated_updating ycfg exT 2 yg yv 6 yopened zacts). Qed.
Lemma zend_closed : all_closed zend.
Proof. apply (closedb_ok ycfg exT 2 yg yv yD 6). vm_compute. reflexivity. Qed.
Lemma jreopens : reopens (man ycfg exT 2 jend) jagain.
Proof. apply again_reopens. vm_compute. reflexivity. Qed.
Lemma jstored : stored_table ycfg exT 2 yman yD 6 (man ycfg exT 2 jend).
Proof. apply (sd_written ycfg exT 2 yman yD 6 (fst jwrote) jend); [apply ywritten_order|]. apply (closedb_ok ycfg exT 2 yg jv yD 6); vm_compute; reflexivity. Qed.
Lemma jopened_from : opened_from (man ycfg exT 2 jend) jopened.
Proof. apply (opensb_ok _ jagain 6 jreopens). vm_compute. reflexivity. Qed.
Lemma jrun_updating : sys_updating ycfg exT 2 (fun r => r < 6) jopened (u_puts jrun) (u_at jrun) jdone.
Proof. exact (yupdated_updating ycfg exT 2 yg jv 6 jopened jacts). Qed.
Lemma jdone_closed : all_closed jdone.
Proof. apply (closedb_ok ycfg exT 2 yg jv yD 6). vm_compute. reflexivity. Qed.
