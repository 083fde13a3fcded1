(** A damaged file: the table of [SystemTraces], of which some bytes of a block were
    overwritten and the last byte of the file was lost. *)
From Verif Require Import Base BaseLemmas Floats TimeBlockBuffer BitStream BytePacker File StMan StManSpec.
From Verif Require Import StochasticEncoder TimeBlockEncoders TbeExamples Weights WeightSpec Block Column ColumnSpec StoredColumn StoredTraces System SystemSpec SystemTraces UpdateSpec SessionSpec DamageSpec SystemWrite SystemHeld SystemSessions UpdateTraces.
Local Open Scope N_scope.

Notation yman3 := (man ycfg exT 2 yend).
(** four bytes in the first block of the data, which are the factor of an antenna, become a NaN *)
Definition dfile : File.file := ftruncate (fwrite (fil yman3) (hdrSize yman3 + 4) [255; 255; 255; 255]) (hdrSize yman3 + 79).
Definition dagain : stman := again dfile.
Definition dopened : stman := opened_of 6 dagain.
Definition dgets : list yact := [YGet 0 1; YMoves 20; YGet 1 1; YMoves 20; YGet 0 5; YMoves 20; YGet 1 5; YMoves 20; YGet 1 0; YMoves 20; YGet 0 1000; YMoves 20; YShut 0; YMoves 40; YShut 1; YMoves 40].
Definition dback : sys ycfg exT 2 := yread ycfg exT 2 yg yv (fun _ => true) dgets (sopen ycfg exT 2 dopened).

Lemma dhdr : hdrSize yman3 + 80 = fsize (fil yman3) /\ hdrSize yman3 < 1000.
Proof. vm_compute. auto. Qed.

Lemma ybytes L : writable ycfg exT 2 yman yD 6 L 4 3 -> forall o, fbyte (fil yman3) o < 256.
Proof. intros W. destruct (stored_held _ _ _ _ _ _ _ _ _ W _ ystored) as (_ & _ & H). exact (hd_bytes _ _ _ _ _ _ _ _ H). Qed.

Lemma ddamaged_of f h : (forall o, fbyte f o < 256) -> h + 80 = fsize f -> h < 1000 ->
  (forall o, fbyte (ftruncate (fwrite f (h + 4) [255; 255; 255; 255]) (h + 79)) o < 256) /\ h <= fsize (ftruncate (fwrite f (h + 4) [255; 255; 255; 255]) (h + 79)) < 2 ^ 64 /\
  (forall o, o < h \/ h + 8 <= o < h + 79 -> fbyte (ftruncate (fwrite f (h + 4) [255; 255; 255; 255]) (h + 79)) o = fbyte f o) /\ fsize (ftruncate (fwrite f (h + 4) [255; 255; 255; 255]) (h + 79)) = h + 79.
Proof.
  intros B E L. change (len [255; 255; 255; 255]) with 4. split; [|split; [|split]].
  - intros o. cbn [ftruncate fbyte]. change 256 with (2 ^ 8). apply write8; [exact B|]. repeat constructor.
  - cbn [ftruncate fwrite fsize]. change (len [255; 255; 255; 255]) with 4. lia.
  - intros o Ho. cbn [ftruncate fwrite fbyte]. change (len [255; 255; 255; 255]) with 4.
    replace ((h + 4 <=? o) && (o <? h + 4 + 4))%bool with false by (symmetry; apply andb_false_iff; rewrite N.leb_gt, N.ltb_ge; lia).
    rewrite (proj2 (N.ltb_lt _ _)); trivial. lia.
  - cbn [ftruncate fwrite fsize]. change (len [255; 255; 255; 255]) with 4. lia.
Qed.

Lemma ddamaged L : writable ycfg exT 2 yman yD 6 L 4 3 -> damaged yman3 dagain.
Proof.
  intros W. destruct dhdr as (E & Lt). destruct (ddamaged_of _ _ (ybytes L W) E Lt) as (D1 & D2 & D3 & _). split; [exact D1|]. split; [exact D2|]. split; [intros o Ho; apply D3; now left|].
  assert (Q : columns yman3 = [Column KAF 1 2 2 0 24 3; Column KWeight 2 2 12 24 16 3]) by (vm_compute; reflexivity). rewrite Q. repeat (constructor; [now repeat split|]). constructor.
Qed.

(** the weights of the first block are where they were *)
Lemma dintact L : writable ycfg exT 2 yman yD 6 L 4 3 -> intact yman3 dagain 1 0 /\ whole_block yman3 dagain 0.
Proof.
  intros W. destruct dhdr as (E & Lt). destruct (ddamaged_of _ _ (ybytes L W) E Lt) as (_ & _ & D3 & Ef).
  assert (Q : columns yman3 = [Column KAF 1 2 2 0 24 3; Column KWeight 2 2 12 24 16 3]) by (vm_compute; reflexivity). assert (Bs : blockSize yman3 = 40) by (vm_compute; reflexivity). split.
  - intros col o Hc Ho. rewrite Q in Hc. injection Hc as <-. unfold region in Ho. cbn [fst snd co_offset co_blockSize] in Ho. rewrite Bs in Ho. apply D3. right. lia.
  - unfold whole_block. rewrite Bs. change (fsize (fil dagain)) with (fsize dfile). unfold dfile. rewrite Ef. lia.
Qed.

Lemma dlost L : writable ycfg exT 2 yman yD 6 L 4 3 -> ~ whole_block yman3 dagain 1.
Proof.
  intros W. destruct dhdr as (E & Lt). destruct (ddamaged_of _ _ (ybytes L W) E Lt) as (_ & _ & _ & Ef). assert (Bs : blockSize yman3 = 40) by (vm_compute; reflexivity).
  unfold whole_block. rewrite Bs. change (fsize (fil dagain)) with (fsize dfile). unfold dfile. rewrite Ef. lia.
Qed.

Definition opened_twice (nr : N) (mo : stman) : stman := match openMan nr mo with Ok m2 => m2 | _ => mo end.
Lemma opened_of_ok nr mo : opensb nr mo = true -> openMan nr mo = Ok (opened_twice nr mo) /\ prepareMan (opened_twice nr mo) = Ok (opened_of nr mo).
Proof. unfold opensb, opened_of, opened_twice. destruct (openMan nr mo) as [m2| |]; try discriminate. destruct (prepareMan m2) as [m3| |] eqn:E; try discriminate. auto. Qed.
Lemma dopens : openMan 6 dagain = Ok (opened_twice 6 dagain) /\ prepareMan (opened_twice 6 dagain) = Ok dopened.
Proof. apply opened_of_ok. vm_compute. reflexivity. Qed.

Lemma dback_reading : sys_reading (fun _ => True) (sopen ycfg exT 2 dopened) dback.
Proof.
  assert (X : forall (ok ok' : N -> Prop) S0 S, (forall r, ok r -> ok' r) -> @sys_reading ycfg exT 2 ok S0 S -> sys_reading ok' S0 S) by (intros ok ok' S0 S1 Ho; induction 1; [constructor|eapply sr_get; eauto|eapply sr_close; eauto|eapply sr_move; eauto|eapply sr_wake; eauto]).
  apply (X (fun r => true = true)); [trivial|]. exact (yread_reading ycfg exT 2 yg yv yD 6 (fun _ => true) dgets (sopen ycfg exT 2 dopened)).
Qed.
Lemma dback_closed : all_closed dback.
Proof. apply (closedb_ok ycfg exT 2 yg yv yD 6). vm_compute. reflexivity. Qed.
Definition douts := (map (show1 show2) (outs (cst ycfg exT 2 dback 0)), map (show1 show) (outs (cst ycfg exT 2 dback 1))).

Definition is_zero {A} (a : answer A) : bool := match a with AZero => true | _ => false end.
Lemma zero_in {e : Column.env} (l : list (N * answer (data e))) r : existsb (fun x => (fst x =? r) && is_zero (snd x)) l = true -> In (r, AZero) l.
Proof. intros H. apply existsb_exists in H as ((r' & a) & Hin & H). apply andb_true_iff in H as (H1 & H2). apply N.eqb_eq in H1. cbn [fst snd] in *. subst r'. destruct a; [exact Hin|discriminate]. Qed.
Definition the {A} (x : option (list A)) : list A := match x with Some v => v | None => [] end.
Lemma the_some {A} (x : option (list A)) : match x with Some _ => true | None => false end = true -> x = Some (the x).
Proof. now destruct x. Qed.
Lemma dlost_rows_of : writable ycfg exT 2 yman yD 6 yL 4 3 -> exists D L m mo m2 m3 S r v,
  writable ycfg exT 2 yman D 6 L 4 3 /\ stored_table ycfg exT 2 yman D 6 m /\ damaged m mo /\ openMan 6 mo = Ok m2 /\ prepareMan m2 = Ok m3 /\ sys_reading (fun _ => True) (sopen ycfg exT 2 m3) S /\
  r < 6 /\ held_row ycfg exT 2 m 1 r = Some v /\ map show v = [Num 1024; Num 1024; Num 512; Num 512] /\ In (r, AZero) (outs (cst ycfg exT 2 S 1)).
Proof.
  intros W. exists yD, yL, yman3, dagain, (opened_twice 6 dagain), dopened, dback, 5, (the (held_row ycfg exT 2 yman3 1 5)).
  refine (conj W (conj ystored (conj (ddamaged yL W) (conj (proj1 dopens) (conj (proj2 dopens) (conj dback_reading (conj _ (conj (the_some _ _) (conj _ (zero_in (e := colenv ycfg exT 2 1) _ _ _)))))))))); vm_compute; reflexivity.
Qed.
