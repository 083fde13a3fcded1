(** Lemmas about the time block buffer. *)
From Verif Require Import Base BaseLemmas TimeBlockBuffer TbbSpec.

Lemma resize_length {A} n (b : tbb A) : length (resize n b) = n.
Proof. unfold resize. rewrite app_length, firstn_length, repeat_length. lia. Qed.

Lemma resize_nth {A} n (b : tbb A) k : (k < n)%nat ->
  nth_error (resize n b) k = Some (match nth_error b k with Some r => r | None => no_row end).
Proof.
  intros H. unfold resize. destruct (Nat.lt_ge_cases k (length b)) as [L|L].
  - rewrite nth_error_app1 by (rewrite firstn_length; lia). rewrite nth_error_firstn_lt by trivial.
    destruct (nth_error b k) eqn:E; trivial. apply nth_error_None in E. lia.
  - rewrite nth_error_app2 by (rewrite firstn_length; lia). rewrite firstn_length.
    rewrite nth_error_repeat_lt by lia. apply nth_error_None in L. now rewrite L.
Qed.

(** the row at [k], absent rows as [no_row] *)
Definition row_at {A} (b : tbb A) (k : nat) : drow A := match nth_error b k with Some r => r | None => no_row end.

Lemma set_ok {A} nSamp (b : tbb A) r a1 a2 d : (nSamp <= length d)%nat ->
  exists b', SetData nSamp b r a1 a2 d = Ok b' /\ length b' = Nat.max (length b) (S r) /\
    row_at b' r = DRow a1 a2 (firstn nSamp d) /\ forall k, k <> r -> row_at b' k = row_at b k.
Proof.
  intros H. unfold SetData. destruct (Nat.ltb_spec (length d) nSamp); [lia|]. eexists. split; [reflexivity|].
  set (b1 := if length b <=? r then resize (r + 1) b else b).
  assert (L1 : length b1 = Nat.max (length b) (S r)).
  { subst b1. destruct (Nat.leb_spec (length b) r); rewrite ?resize_length; lia. }
  assert (R1 : forall k, row_at b1 k = row_at b k).
  { intros k. subst b1. destruct (Nat.leb_spec (length b) r); trivial. unfold row_at.
    destruct (Nat.lt_ge_cases k (r + 1)) as [L|L]; [now rewrite resize_nth|].
    assert (E1 : nth_error (resize (r + 1) b) k = None) by (apply nth_error_None; rewrite resize_length; lia).
    assert (E2 : nth_error b k = None) by (apply nth_error_None; lia). now rewrite E1, E2. }
  assert (L : (r < length b1)%nat) by lia.
  split; [|split].
  - rewrite app_length, firstn_length. cbn [length]. rewrite skipn_length. lia.
  - unfold row_at. rewrite nth_error_app2 by (rewrite firstn_length; lia). rewrite firstn_length.
    replace (r - Nat.min r (length b1))%nat with 0%nat by lia. reflexivity.
  - intros k Hk. rewrite <- R1. unfold row_at. destruct (Nat.lt_ge_cases k r) as [Lk|Lk].
    + rewrite nth_error_app1 by (rewrite firstn_length; lia). now rewrite nth_error_firstn_lt.
    + rewrite nth_error_app2 by (rewrite firstn_length; lia). rewrite firstn_length.
      replace (k - Nat.min r (length b1))%nat with (S (k - r - 1)) by lia. cbn [nth_error].
      rewrite nth_error_skipn_add. replace (S r + (k - r - 1))%nat with k by lia. reflexivity.
Qed.

Lemma get_row {A} (b : tbb A) r : (r < length b)%nat -> GetData b r = Ok (visibilities (row_at b r)).
Proof. intros H. unfold GetData, row_at. destruct (nth_error b r) eqn:E; trivial. apply nth_error_None in E. lia. Qed.

Lemma get_out {A} (b : tbb A) r : (length b <= r)%nat -> GetData b r = UB.
Proof. intros H. unfold GetData. apply nth_error_None in H. now rewrite H. Qed.

Definition size_after {A} (cs : list (set_call A)) (n : nat) : nat := fold_left (fun n c => Nat.max n (S (c_row c))) cs n.

Lemma sets_ok {A} nSamp (cs : list (set_call A)) : forall b, Forall (fun c => nSamp <= length (c_data c))%nat cs ->
  exists b', run_sets nSamp cs b = Ok b' /\ length b' = size_after cs (length b) /\
    forall r, row_at b' r = match last_call cs r with Some c => DRow (c_a1 c) (c_a2 c) (firstn nSamp (c_data c)) | None => row_at b r end.
Proof.
  unfold run_sets. induction cs as [|c cs IH]; intros b F; cbn [foldM last_call size_after fold_left].
  - eexists. split; [reflexivity|]. now split.
  - inversion F as [|? ? Fc F']; subst. destruct (set_ok nSamp b (c_row c) (c_a1 c) (c_a2 c) (c_data c) Fc) as (b1 & -> & L1 & R1 & O1).
    cbn [bind]. destruct (IH b1 F') as (b' & E & L & R). exists b'. split; [exact E|]. split; [rewrite L, L1; reflexivity|].
    intros r. rewrite R. destruct (last_call cs r); trivial. destruct (Nat.eqb_spec (c_row c) r) as [N|N]; [subst r; exact R1|].
    apply O1. auto.
Qed.

Lemma size_after_spec {A} (cs : list (set_call A)) : forall n, let m := size_after cs n in
  (n <= m)%nat /\ Forall (fun c => c_row c < m)%nat cs /\ (m = n \/ exists c, In c cs /\ m = S (c_row c)).
Proof.
  unfold size_after. induction cs as [|c cs IH]; intros n; cbn [fold_left]; cbv zeta.
  - split; [lia|]. split; [constructor|now left].
  - destruct (IH (Nat.max n (S (c_row c)))) as (H1 & H2 & H3). split; [lia|]. split; [constructor; [lia|trivial]|].
    destruct H3 as [->|(c' & Hc & ->)].
    + destruct (Nat.max_spec n (S (c_row c))) as [(? & ->)|(? & ->)]; [right|now left]. exists c. split; [now left|trivial].
    + right. exists c'. split; [now right|trivial].
Qed.

Lemma max_fold {A} (b : tbb A) : forall m, let M := fold_left (fun m r => Nat.max m (Nat.max (antenna1 r) (antenna2 r))) b m in
  (m <= M)%nat /\ (forall r, In r b -> antenna1 r <= M /\ antenna2 r <= M)%nat /\
  (M = m \/ exists r, In r b /\ (M = antenna1 r \/ M = antenna2 r)).
Proof.
  induction b as [|x b IH]; intros m; cbn [fold_left]; cbv zeta.
  - split; [lia|]. split; [easy|now left].
  - destruct (IH (Nat.max m (Nat.max (antenna1 x) (antenna2 x)))) as (H1 & H2 & H3). split; [lia|]. split.
    + intros r [<-|Hr]; [lia|]. now apply H2.
    + destruct H3 as [->|(r & Hr & H3)].
      * destruct (Nat.max_spec m (Nat.max (antenna1 x) (antenna2 x))) as [(? & ->)|(? & ->)]; [right|now left].
        exists x. split; [now left|]. lia.
      * right. exists r. split; [now right|trivial].
Qed.

Lemma max_antenna {A} nSamp (cs : list (set_call A)) b' : Forall (fun c => nSamp <= length (c_data c))%nat cs ->
  run_sets nSamp cs [] = Ok b' ->
  (forall r c, last_call cs r = Some c -> c_a1 c <= MaxAntennaIndex b' /\ c_a2 c <= MaxAntennaIndex b')%nat /\
  (MaxAntennaIndex b' = 0%nat \/ exists r c, last_call cs r = Some c /\ (MaxAntennaIndex b' = c_a1 c \/ MaxAntennaIndex b' = c_a2 c)).
Proof.
  intros F E. destruct (sets_ok nSamp cs [] F) as (b & E' & L & R). rewrite E in E'. injection E' as <-.
  assert (X : forall c r, last_call cs r = Some c -> In c cs /\ c_row c = r).
  { clear. induction cs as [|x cs IH]; intros c r; cbn [last_call]; [discriminate|]. destruct (last_call cs r) eqn:E.
    - intros [= <-]. destruct (IH _ _ E). split; [now right|trivial].
    - destruct (Nat.eqb_spec (c_row x) r); [|discriminate]. intros [= <-]. split; [now left|trivial]. }
  assert (Y : forall r, row_at ([] : tbb A) r = no_row) by (intros []; reflexivity).
  destruct (size_after_spec cs (length ([] : tbb A))) as (_ & S2 & _).
  destruct (max_fold b' 0) as (_ & M2 & M3). fold (MaxAntennaIndex b') in *. split.
  - intros r c Hc. specialize (R r). rewrite Hc in R. destruct (X _ _ Hc) as (Hin & <-).
    rewrite Forall_forall in S2. pose proof (S2 c Hin) as Hl. rewrite <- L in Hl.
    unfold row_at in R. destruct (nth_error b' (c_row c)) as [x|] eqn:Ex; [|apply nth_error_None in Ex; lia].
    apply nth_error_In in Ex. apply M2 in Ex. rewrite R in Ex. exact Ex.
  - destruct M3 as [->|(x & Hx & M3)]; [now left|]. apply In_nth_error in Hx. destruct Hx as (r & Hr).
    specialize (R r). unfold row_at in R at 1. rewrite Hr in R. destruct (last_call cs r) as [c|] eqn:Ec.
    + right. exists r, c. split; trivial. now rewrite R in M3.
    + rewrite Y in R. rewrite R in M3. cbn in M3. left. destruct M3; trivial.
Qed.

(** the map view *)
Lemma buffer_is_map {A} nSamp (cs : list (set_call A)) : Forall (fun c => nSamp <= length (c_data c))%nat cs ->
  exists b, run_sets nSamp cs [] = Ok b /\
    (forall r c, last_call cs r = Some c -> GetData b r = Ok (firstn nSamp (c_data c)) /\
       exists rw, nth_error b r = Some rw /\ antenna1 rw = c_a1 c /\ antenna2 rw = c_a2 c) /\
    (forall r, last_call cs r = None -> (r < NRows b)%nat -> GetData b r = Ok []) /\
    (forall r, (NRows b <= r)%nat -> GetData b r = UB) /\
    (forall c, In c cs -> c_row c < NRows b)%nat /\
    (NRows b = 0%nat \/ exists c, In c cs /\ NRows b = S (c_row c)) /\
    (Empty b = true <-> cs = []).
Proof.
  intros F. destruct (sets_ok nSamp cs [] F) as (b & E & L & R). exists b. split; trivial.
  assert (X : forall c r, last_call cs r = Some c -> In c cs /\ c_row c = r).
  { clear. induction cs as [|x cs IH]; intros c r; cbn [last_call]; [discriminate|]. destruct (last_call cs r) eqn:E.
    - intros [= <-]. destruct (IH _ _ E). split; [now right|trivial].
    - destruct (Nat.eqb_spec (c_row x) r); [|discriminate]. intros [= <-]. split; [now left|trivial]. }
  assert (Y : forall r, row_at ([] : tbb A) r = no_row) by (intros []; reflexivity).
  destruct (size_after_spec cs (length ([] : tbb A))) as (_ & S2 & S3). cbv zeta in *. rewrite <- L in S2, S3.
  rewrite Forall_forall in S2. unfold NRows.
  split.
  { intros r c Hc. destruct (X _ _ Hc) as (Hin & <-). pose proof (S2 c Hin) as Hl. specialize (R (c_row c)). rewrite Hc in R.
    rewrite get_row by trivial. rewrite R. split; trivial. unfold row_at in R.
    destruct (nth_error b (c_row c)) as [x|] eqn:Ex; [|apply nth_error_None in Ex; lia]. exists x. subst x. now repeat split. }
  split. { intros r Hn Hl. rewrite get_row by trivial. rewrite R, Hn, Y. reflexivity. }
  split. { intros r. apply get_out. }
  split; [exact S2|]. split.
  { destruct S3 as [S3|S3]; [left; exact S3|right; exact S3]. }
  destruct b; cbn [Empty length] in *; split; trivial.
  - intros _. destruct cs as [|c cs]; trivial. specialize (S2 c (or_introl eq_refl)). lia.
  - discriminate.
  - intros ->. discriminate.
Qed.
