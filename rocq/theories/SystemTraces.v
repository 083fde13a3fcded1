(** Runs of a small table with several columns, used as examples. *)
From Coq Require Import Reals Eqdep_dec.
From Flocq Require Import Core.
From Verif Require Import Base BaseLemmas Floats TimeBlockBuffer BytePacker File StMan StManSpec.
From Verif Require Import BitStream StochasticEncoder TimeBlockEncoders TbeSpec WeightSpec TbeExamples AfExamples PropBlock Block Column ColumnSpec ColumnOrder StoredColumn StoredTraces System SystemSpec.
Local Open Scope N_scope.

(** put the next row of a column; read a row; close a column; the next steps of the threads *)
Inductive yact := YPut (i : nat) | YGet (i : nat) (row : N) | YShut (i : nat) | YMoves (n : nat).

Definition isnil {A} (l : list A) : bool := match l with [] => true | _ => false end.
Lemma isnil_eq {A} (l : list A) : isnil l = true -> l = [].
Proof. now destruct l. Qed.
Definition isrunning (u : status_t) : bool := match u with Running => true | _ => false end.
Lemma isrunning_eq u : isrunning u = true -> u = Running.
Proof. now destruct u. Qed.

Section run.
Context (cfg : nat -> coldef) (T : table) (nt : nat) (g : forall i, rand (codec_of (cfg i))) (sv : nat -> N) (D : forall i, N -> list (data (colenv cfg T nt i))) (K : N).
Notation sys := (sys cfg T nt). Notation Sys := (Sys cfg T nt).
Notation cst := (cst cfg T nt). Notation man := (man cfg T nt). Notation active := (active cfg T nt).
Notation ncol := (ncol cfg T nt). Notation running := (running cfg T nt). Notation colenv := (colenv cfg T nt).

(** column [i] replaced by [s], the others changed by [f] *)
Definition upd (S : sys) (i : nat) (s : state (colenv i)) (f : forall j, state (colenv j) -> state (colenv j)) : forall j, state (colenv j) :=
  fun j => match Nat.eq_dec i j with left E => eq_rect i (fun j => state (colenv j)) s j E | right _ => f j (cst S j) end.
Lemma upd_same S i s f : upd S i s f i = s.
Proof. unfold upd. destruct (Nat.eq_dec i i) as [E|N]; [|now destruct N]. now rewrite (UIP_dec Nat.eq_dec E eq_refl). Qed.
Lemma upd_other S i s f j : j <> i -> upd S i s f j = f j (cst S j).
Proof. intros H. unfold upd. destruct (Nat.eq_dec i j) as [E|N]; [now destruct H|reflexivity]. Qed.

Definition all_cols (S : sys) (f : nat -> bool) : bool := forallb f (seq 0 (ncol S)).
Lemma all_cols_ok S f : all_cols S f = true -> forall j, (j < ncol S)%nat -> f j = true.
Proof. unfold all_cols. rewrite forallb_forall. intros H j Hj. apply H, in_seq. lia. Qed.
Definition runningb (S : sys) : bool := all_cols S (fun j => isrunning (status (cst S j))).
Lemma runningb_ok S : runningb S = true -> running S.
Proof. intros H j Hj. apply isrunning_eq. now apply (all_cols_ok S _ H). Qed.
Definition idleb (S : sys) (i : nat) : bool := all_cols S (fun j => (j =? i)%nat || isnil (code (cst S j))).
Lemma idleb_ok S i : idleb S i = true -> others_idle cfg T nt S i.
Proof. intros H j Hj Hi. apply isnil_eq. pose proof (all_cols_ok S _ H j Hj) as X. cbn beta in X. apply orb_true_iff in X as [X|X]; trivial. apply Nat.eqb_eq in X. contradiction. Qed.

Definition enc_of (i : nat) : N -> nat -> tbb (data (colenv i)) -> option (list N) := fill_encode (sv i) (codec_of (cfg i)) (bits_of (cfg i)) (g i).

(** the next step of the calling thread in column [i] *)
Definition ymain (S : sys) (i : nat) : option sys :=
  match nth_error (columns (man S)) i, code (cst S i) with
  | Some col, x :: c =>
    if mwait (cst S i) || negb (runningb S) then None
    else match x with
    | ILoad b => if idleb S i then Some (Sys (man S) (upd S i (sys_load cfg T nt (man S) i col (repeat 0 (N.to_nat (co_blockSize col))) (set_code (cst S i) c) b) (fun _ s => s)) (active S)) else None
    | ISetRpb n m =>
      match exec None (cst S i) (ISetRpb n m) c with
      | Some s1 =>
        if (i =? active S)%nat then
          if idleb S i then
            match initializeRowsPerBlock (man S) n (N.of_nat m) true with
            | Ok m1 => Some (Sys m1 (upd S i s1 (fun _ s => set_code s (call_code (OtherInit n m)))) (active S))
            | _ => None
            end
          else None
        else Some (Sys (man S) (upd S i s1 (fun _ s => s)) (active S))
      | None => None
      end
    | x => if negb (i =? active S)%nat || idleb S i then
        match exec None (cst S i) x c with
        | Some s1 => Some (Sys (man S) (upd S i s1 (fun _ s => s)) (active S))
        | None => None
        end else None
    end
  | _, _ => None
  end.

(** the next step of encoding thread [k] of column [i] *)
Definition ywork (S : sys) (i k : nat) : option sys :=
  match nth_error (columns (man S)) i, nth_error (workers (cst S i)) k with
  | Some col, Some w =>
    if negb (runningb S) then None
    else match (match w with
                | WPicked b x => if negb (encodable (colenv i) (rpb (cst S i)) (nant (cst S i)) x) then None else match enc_of i (rpb (cst S i)) (nant (cst S i)) x with Some y => Some (y, writeCompressedData (man S) b col y) | None => None end
                | _ => Some ([], man S)
                end) with
    | Some (y, m1) =>
      match wexec (e := colenv i) y (cst S i) w with
      | Some (s1, w1) => Some (Sys m1 (upd S i (set_worker s1 k w1) (fun j s => Column.set_file s (file s) (nBlocksInFile m1))) (active S))
      | None => None
      end
    | None => None
    end
  | _, _ => None
  end.

Lemma ymain_move S i S' : ymain S i = Some S' -> smove cfg T nt S S'.
Proof.
  unfold ymain. destruct (nth_error (columns (man S)) i) as [col|] eqn:Ec; [|discriminate].
  assert (Hi : (i < ncol S)%nat) by (apply nth_error_Some; congruence).
  destruct (code (cst S i)) as [|x c] eqn:Hc; [discriminate|].
  destruct (mwait (cst S i)) eqn:Mw; [discriminate|]. destruct (runningb S) eqn:R; [|discriminate]. apply runningb_ok in R. cbn [orb negb].
  assert (P : plain x = true -> (if negb (i =? active S)%nat || idleb S i then
        match exec None (cst S i) x c with
        | Some s1 => Some (Sys (man S) (upd S i s1 (fun _ s => s)) (active S))
        | None => None
        end else None) = Some S' -> smove cfg T nt S S').
  { intros Px. destruct (negb (i =? active S)%nat || idleb S i) eqn:Q; [|discriminate]. destruct (exec None (cst S i) x c) as [s1|] eqn:E; [|discriminate]. intros [= <-].
    apply (ss_main cfg T nt S _ i x c); trivial.
    - apply orb_true_iff in Q as [Q|Q]; [left|right; now apply idleb_ok]. apply negb_true_iff, Nat.eqb_neq in Q. exact Q.
    - cbn. now rewrite upd_same.
    - split; [reflexivity|]. intros j Hj. cbn. now rewrite upd_other. }
  destruct x as [row d|row d|r row d|b| |row|b|row|row|n m| | | | | | | |]; try (now apply P).
  - destruct (idleb S i) eqn:Q; [|discriminate]. intros [= <-]. apply (ss_load cfg T nt S _ i b c col (repeat 0 (N.to_nat (co_blockSize col)))); trivial.
    + now apply idleb_ok.
    + unfold len. rewrite repeat_length. lia.
    + apply Forall_forall. intros v Hv. apply repeat_spec in Hv. now subst v.
    + cbn [System.cst]. now rewrite upd_same.
    + split; [reflexivity|]. intros j Hj. cbn. now rewrite upd_other.
  - destruct (exec None (cst S i) (ISetRpb n m) c) as [s1|] eqn:E; [|discriminate].
    destruct (i =? active S)%nat eqn:Ea.
    + apply Nat.eqb_eq in Ea. destruct (idleb S i) eqn:Q; [|discriminate]. destruct (initializeRowsPerBlock (man S) n (N.of_nat m) true) as [m1| |] eqn:Em; try discriminate. intros [= <-].
      apply (ss_init cfg T nt S _ i n m c); trivial; [now apply idleb_ok|rewrite E; cbn [System.cst]; now rewrite upd_same|].
      intros j Hj. cbn [System.cst]. now rewrite upd_other.
    + apply Nat.eqb_neq in Ea. intros [= <-]. apply (ss_follow cfg T nt S _ i n m c); trivial.
      * rewrite E. cbn [System.cst]. now rewrite upd_same.
      * split; [reflexivity|]. intros j Hj. cbn. now rewrite upd_other.
Qed.

Lemma ywork_move S i k S' : ywork S i k = Some S' -> smove cfg T nt S S'.
Proof.
  unfold ywork. destruct (nth_error (columns (man S)) i) as [col|] eqn:Ec; [|discriminate].
  destruct (nth_error (workers (cst S i)) k) as [w|] eqn:Hw; [|discriminate]. destruct (runningb S) eqn:R; [|discriminate]. apply runningb_ok in R. cbn [negb].
  destruct (match w with WPicked _ _ => _ | _ => _ end) as [(y & m1)|] eqn:Ey; [|discriminate].
  destruct (wexec (e := colenv i) y (cst S i) w) as [(s1 & w1)|] eqn:Ew; [|discriminate]. intros [= <-].
  apply (ss_worker cfg T nt S _ i k w y s1 w1 col); trivial.
  - intros b x -> _. destruct (negb _); [discriminate|]. destruct (enc_of i (rpb (cst S i)) (nant (cst S i)) x) as [y'|] eqn:E; [|discriminate]. injection Ey as <- _. now apply (fill_encode_ok (sv i) _ _ (g i)).
  - cbn [System.cst]. now rewrite upd_same.
  - cbn [System.man]. destruct w as [| | |b x|b|]; try (now injection Ey as _ <-).
    destruct (encodable (colenv i) (rpb (cst S i)) (nant (cst S i)) x) eqn:En; cbn [negb] in Ey; [|discriminate].
    destruct (enc_of i (rpb (cst S i)) (nant (cst S i)) x) as [y'|] eqn:E; [|discriminate]. now injection Ey as <- <-.
  - intros j Hj. cbn [System.cst System.man]. now rewrite upd_other.
Qed.

(** the next step of any thread: of the calling thread, or of the first encoding thread that can go on *)
Fixpoint first_of {A B} (f : A -> option B) (l : list A) : option B :=
  match l with [] => None | a :: l => match f a with Some b => Some b | None => first_of f l end end.
Lemma first_of_some {A B} (f : A -> option B) l b : first_of f l = Some b -> exists a, f a = Some b.
Proof. induction l as [|a l IH]; cbn; [discriminate|]. destruct (f a) as [b'|] eqn:E; [intros [= <-]; eauto|exact IH]. Qed.
Definition ynext (S : sys) : option sys :=
  match first_of (ymain S) (seq 0 (ncol S)) with
  | Some S' => Some S'
  | None => first_of (fun i => first_of (ywork S i) (seq 0 nt)) (seq 0 (ncol S))
  end.
Lemma ynext_move S S' : ynext S = Some S' -> smove cfg T nt S S'.
Proof.
  unfold ynext. destruct (first_of (ymain S) _) as [S1|] eqn:E.
  - intros [= <-]. apply first_of_some in E as (i & E). now apply ymain_move in E.
  - intros H. apply first_of_some in H as (i & H). apply first_of_some in H as (k & H). now apply ywork_move in H.
Qed.
Fixpoint ymoves (n : nat) (S : sys) : sys := match n with O => S | Datatypes.S n => match ynext S with Some S' => ymoves n S' | None => S end end.

(** a call *)
Definition ycall (S : sys) (i : nat) (a : call (colenv i)) (ok shut : bool) : option sys :=
  if (i <? ncol S)%nat && runningb S && all_cols S (fun j => isnil (code (cst S j))) && negb (closed (cst S i)) && ok && (shut || all_cols S (fun j => negb (closed (cst S j))))
  then Some (Sys (man S) (upd S i (set_code (cst S i) (call_code a)) (fun _ s => s)) i) else None.
Lemma ycall_call S i a ok shut S' : (ok = true -> user_call a) -> (shut = true -> a = Shutdown) -> ycall S i a ok shut = Some S' -> ok = true /\ scall cfg T nt S S' i a.
Proof.
  intros Ho Hs. unfold ycall. match goal with |- (if ?b then _ else _) = _ -> _ => destruct b eqn:Q end; [|discriminate]. intros [= <-].
  repeat (apply andb_true_iff in Q; destruct Q as (Q & ?)). rename H into Q0, H0 into Q1, H1 into Q2, H2 into Q3, H3 into Q4. apply Nat.ltb_lt in Q. split; trivial. split; trivial. split; [now apply runningb_ok|].
  split. { intros j Hj. apply isnil_eq. exact (all_cols_ok S _ Q3 j Hj). }
  split; [now apply negb_true_iff|]. split; [auto|]. split.
  { intros Hn j Hj. apply orb_true_iff in Q0 as [Q0|Q0]; [now destruct Hn; auto|]. apply negb_true_iff. exact (all_cols_ok S _ Q0 j Hj). }
  cbn [System.cst System.man System.active]. split; [now rewrite upd_same|]. split; [reflexivity|]. split; [reflexivity|]. intros j Hj. now rewrite upd_other.
Qed.

(** writing in order *)
Fixpoint ywrites (l : list yact) (ks : nat -> N) (S : sys) : option ((nat -> N) * sys) :=
  match l with
  | [] => Some (ks, S)
  | YMoves n :: l => ywrites l ks (ymoves n S)
  | YPut i :: l => match ycall S i (Put (e := colenv i) (ks i) (D i (ks i))) ((ks i <? K) && (ks i <? 2 ^ 32)) false with
                   | Some S' => ywrites l (fun j => if (j =? i)%nat then ks i + 1 else ks j) S' | None => None end
  | YShut i :: l => match ycall S i Shutdown (all_cols S (fun j => ks j =? K)) true with Some S' => ywrites l ks S' | None => None end
  | YGet _ _ :: _ => None
  end.
Lemma ymoves_order m n : forall ks S, sys_order cfg T nt m D K ks S -> sys_order cfg T nt m D K ks (ymoves n S).
Proof. induction n as [|n IH]; intros ks S H; cbn [ymoves]; trivial. destruct (ynext S) as [S'|] eqn:E; trivial. apply IH. eapply so_move; eauto. now apply ynext_move. Qed.
Lemma ywrites_order m l : forall ks S ks' S', sys_order cfg T nt m D K ks S -> ywrites l ks S = Some (ks', S') -> sys_order cfg T nt m D K ks' S'.
Proof.
  induction l as [|a l IH]; intros ks S ks' S' H; cbn [ywrites]; [now intros [= <- <-]|]. destruct a as [i|i row|i|n]; try discriminate.
  - destruct (ycall _ _ _ _ _) as [S1|] eqn:E; [|discriminate]. apply ycall_call in E; [|intros Q; apply andb_true_iff in Q as (_ & Q); now apply N.ltb_lt|discriminate].
    destruct E as (Q & E). apply andb_true_iff in Q as (Q & _). apply N.ltb_lt in Q. apply IH. eapply so_put; eauto.
  - destruct (ycall _ _ _ _ _) as [S1|] eqn:E; [|discriminate]. apply ycall_call in E; [|intros _; exact Logic.I|reflexivity].
    destruct E as (Q & E). apply IH. eapply so_close; eauto. intros j Hj. apply N.eqb_eq. exact (all_cols_ok S _ Q j Hj).
  - apply IH. now apply ymoves_order.
Qed.

(** reading *)
Fixpoint yreads (okb : N -> bool) (l : list yact) (S : sys) : option sys :=
  match l with
  | [] => Some S
  | YMoves n :: l => yreads okb l (ymoves n S)
  | YGet i row :: l => match ycall S i (Get (e := colenv i) row) ((row <? 2 ^ 32) && okb row) false with Some S' => yreads okb l S' | None => None end
  | YShut i :: l => match ycall S i Shutdown true true with Some S' => yreads okb l S' | None => None end
  | YPut _ :: _ => None
  end.
Lemma ymoves_reading ok S0 n : forall S, sys_reading ok S0 S -> sys_reading ok S0 (ymoves n S).
Proof. induction n as [|n IH]; intros S H; cbn [ymoves]; trivial. destruct (ynext S) as [S'|] eqn:E; trivial. apply IH. eapply sr_move; eauto. now apply ynext_move. Qed.
Lemma yreads_reading okb S0 l : forall S S', sys_reading (fun r => okb r = true) S0 S -> yreads okb l S = Some S' -> sys_reading (fun r => okb r = true) S0 S'.
Proof.
  induction l as [|a l IH]; intros S S' H; cbn [yreads]; [now intros [= <-]|]. destruct a as [i|i row|i|n]; try discriminate.
  - destruct (ycall _ _ _ _ _) as [S1|] eqn:E; [|discriminate]. apply ycall_call in E; [|intros Q; apply andb_true_iff in Q as (Q & _); now apply N.ltb_lt|discriminate].
    destruct E as (Q & E). apply andb_true_iff in Q as (_ & Q). apply IH. eapply sr_get; eauto.
  - destruct (ycall _ _ _ _ _) as [S1|] eqn:E; [|discriminate]. apply ycall_call in E; [|intros _; exact Logic.I|reflexivity].
    destruct E as (Q & E). apply IH. eapply sr_close; eauto.
  - apply IH. now apply ymoves_reading.
Qed.

Definition ywritten (m : stman) l : (nat -> N) * sys := match ywrites l (fun _ => 0) (snew cfg T nt m) with Some r => r | None => (fun _ => 0, snew cfg T nt m) end.
Lemma ywritten_order m l : sys_order cfg T nt m D K (fst (ywritten m l)) (snd (ywritten m l)).
Proof. unfold ywritten. destruct (ywrites l _ _) as [(ks & S)|] eqn:E; [|constructor]. eapply ywrites_order; eauto. constructor. Qed.
Definition yread (okb : N -> bool) l S0 : sys := match yreads okb l S0 with Some S1 => S1 | None => S0 end.
Lemma yread_reading okb l S0 : sys_reading (fun r => okb r = true) S0 (yread okb l S0).
Proof. unfold yread. destruct (yreads okb l S0) as [S1|] eqn:E; [|constructor]. eapply yreads_reading; eauto. constructor. Qed.
Definition closedb (S : sys) : bool := all_cols S (fun j => closed (cst S j) && isnil (code (cst S j))).
Lemma closedb_ok S : closedb S = true -> all_closed S.
Proof. intros H j Hj. pose proof (all_cols_ok S _ H j Hj) as X. cbn beta in X. apply andb_true_iff in X as (X & Y). split; trivial. now apply isnil_eq. Qed.
End run.

(** Two columns, data (normalization AF) and weights, and the table of [StoredTraces]: four
    rows per block, six rows. *)
Definition ycfg (i : nat) : coldef := match i with O => CAF ex3 1 2 2 | _ => CWeight 2 2 12 end.
Definition yg (i : nat) : rand (codec_of (ycfg i)) := match i with O => fun _ => 5%Z | _ => tt end.
(** the symbols in the buffers of the encoding threads *)
Definition yv (i : nat) : N := 0.
Definition yD (i : nat) : N -> list (data (colenv ycfg exT 2 i)) := match i with O => exD | _ => exW end.
Definition yL (i : nat) : f32 := two.
Definition yman : stman :=
  StMan 0 0 0 0 0 0 empty_file [77; 83] 2 12 3 0 0 0 [Column KAF 1 2 2 0 0 0; Column KWeight 2 2 12 0 0 0].
(** the rows of the two columns in turns, the threads running in between or not *)
Definition yfew (i j : nat) : list yact := [YPut i; YMoves 12; YPut j; YMoves 12].
Definition yputs : list yact := yfew 0 1 ++ yfew 1 0 ++ yfew 0 1 ++ yfew 0 0 ++ yfew 1 1 ++ [YPut 0; YMoves 3; YPut 1; YMoves 5; YShut 1; YMoves 40; YShut 0; YMoves 40].
Definition ywrote := ywritten ycfg exT 2 yg yv yD 6 yman yputs.
Definition yend : sys ycfg exT 2 := snd ywrote.
(** in the middle of putting a row *)
Definition ymid := ywritten ycfg exT 2 yg yv yD 6 yman (yfew 0 1 ++ yfew 1 0 ++ yfew 0 1 ++ [YPut 0; YMoves 12; YPut 0; YMoves 8]).
(** the file opened again *)
Definition again (f : File.file) : stman := StMan 0 0 0 0 0 0 f [] 0 0 0 0 0 0 [Column KAF 1 2 0 0 0 0; Column KWeight 2 2 0 0 0 0].
Definition yagain : stman := again (fil (man ycfg exT 2 yend)).
Definition opened_of (nr : N) (mo : stman) : stman := match openMan nr mo with Ok m2 => match prepareMan m2 with Ok m3 => m3 | _ => m2 end | _ => mo end.
Definition yopened : stman := opened_of 6 yagain.
Definition ygets : list yact := [YGet 0 5; YMoves 20; YGet 1 1; YMoves 20; YGet 0 1; YMoves 20; YGet 1 5; YMoves 20; YGet 1 0; YMoves 20].
Definition yback : sys ycfg exT 2 := yread ycfg exT 2 yg yv (fun r => r <? 6) ygets (sopen ycfg exT 2 yopened).
Definition ydata : list (N * option (list (shown * shown))) := map (show1 show2) (outs (cst ycfg exT 2 yback 0)).
Definition yweights : list (N * option (list shown)) := map (show1 show) (outs (cst ycfg exT 2 yback 1)).

Lemma yman_new : new_table ycfg yman.
Proof.
  constructor; try reflexivity; try discriminate.
  - constructor; try reflexivity. repeat (apply Forall_cons; [split; vm_compute; reflexivity|]). constructor.
  - intros i col. destruct i as [|[|i]]; [| |destruct i; discriminate]; intros [= <-]; (split; [repeat split|cbn; lia]).
Qed.
Lemma again_reopens m : columns m = [Column KAF 1 2 2 0 24 3; Column KWeight 2 2 12 24 16 3] -> reopens m (again (fil m)).
Proof. intros E. split; [reflexivity|]. rewrite E. repeat (constructor; [now repeat split|]). constructor. Qed.
Lemma yreopens : reopens (man ycfg exT 2 yend) yagain.
Proof. apply again_reopens. vm_compute. reflexivity. Qed.
Lemma yfits : fits32 (man ycfg exT 2 yend).
Proof. intros _. vm_compute. reflexivity. Qed.
Lemma ylong i r : (nSamp (colenv ycfg exT 2 i) <= length (yD i r))%nat.
Proof. destruct i; [apply exD_long|apply exW_long]. Qed.
Lemma ycoldef i : coldef_ok (ycfg i) (yL i).
Proof. destruct i; [split; [exact ex3_bits|exact ex3_levels]|unfold coldef_ok, ycfg, supported; cbn; tauto]. Qed.
Lemma ydata_ok i : data_ok (ycfg i) (yD i).
Proof. destruct i; [exact I|exact exW_nonneg]. Qed.
Lemma yback_reading : sys_reading (fun r => r < 6) (sopen ycfg exT 2 yopened) yback.
Proof. assert (X : forall (ok ok' : N -> Prop) S0 S, (forall r, ok r -> ok' r) -> @sys_reading ycfg exT 2 ok S0 S -> sys_reading ok' S0 S) by (intros ok ok' S0 S1 Ho; induction 1; [constructor|eapply sr_get; eauto|eapply sr_close; eauto|eapply sr_move; eauto|eapply sr_wake; eauto]).
  apply (X (fun r => (r <? 6) = true)); [intros r; apply N.ltb_lt|]. apply (yread_reading ycfg exT 2 yg yv yD 6).
Qed.
Lemma yants : ants32 exT.
Proof. intros r. destruct (exT_below r). split; lia. Qed.
Lemma ystart : sstart ycfg exT 2 (snew ycfg exT 2 yman).
Proof. apply st_new; try reflexivity. apply yman_new. Qed.
Lemma order_reach {cfg T nt m D K ks S} : sys_order cfg T nt m D K ks S -> sreach cfg T nt (snew cfg T nt m) S.
Proof.
  induction 1 as [|ks S S' i H IH Hk Hc|ks S S' i H IH Hk Hc|ks S S' H IH Hm|ks S S' H IH Hm]; [constructor|eapply sreach_step; eauto..].
  - eapply ss_call; eauto.
  - eapply ss_call; eauto.
  - now apply ss_move.
  - now apply ss_wake.
Qed.
