(** The antenna-field encoder in closed form.  Proof file. *)
From Verif Require Import Base BaseLemmas Floats FloatLemmas TimeBlockBuffer StochasticEncoder TimeBlockEncoders TbeSpec TbeLoops.
Local Open Scope nat_scope.
Local Arguments imap : simpl never.
Local Arguments Nat.ltb : simpl never.

Lemma fold_left_ext {A S} (f g : S -> A -> S) l : forall s, (forall s a, In a l -> f s a = g s a) -> fold_left f l s = fold_left g l s.
Proof. induction l as [|a l IH]; intros s H; cbn; trivial. rewrite H by now left. apply IH. intros; apply H; now right. Qed.

Section Form.
Context (nPol nChan nAnt : nat).
Notation n := (nPol * nChan).

(** one change of a factor *)
Inductive op := Chan (i : nat) (f : f64) | Ant (p a : nat) (f : f64).
Definition fac (o : op) : f64 := match o with Chan _ f => f | Ant _ _ f => f end.
Definition slot (o : op) : nat := match o with Chan i _ => i | Ant p a _ => n + nAnt * p + a end.
Definition valid (o : op) : Prop := match o with Chan i _ => i < n | Ant p a _ => p < nPol /\ a < nAnt end.
Definition uses {A} (r : drow A) (a : nat) : nat := (if antenna1 r =? a then 1 else 0) + (if antenna2 r =? a then 1 else 0).
Definition hits {A} (o : op) (r : drow A) (i : nat) : nat :=
  match o with
  | Chan j _ => if i =? j then 1 else 0
  | Ant p a _ => if i mod nPol =? p then uses r a else 0
  end.
Definition sc (f : f64) (k : nat) (v : cd) : cd := Nat.iter k (fun v => cmul v f) v.
Definition remap (g : drow cd -> nat -> cd -> cd) (r : drow cd) : drow cd := DRow (antenna1 r) (antenna2 r) (imap (g r) (visibilities r)).
Definition app_data (o : op) (data : list (drow cd)) : list (drow cd) := map (remap (fun r i => sc (fac o) (hits o r i))) data.
Definition app_meta (o : op) (meta : list f32) : list f32 :=
  @imap f32 f32 (fun j (x : f32) => if j =? slot o then to32 (div64 (to64 x) (fac o)) else x) meta.

Definition shaped {A} (data : list (drow A)) : Prop :=
  rows_of n data /\ forall r, In r data -> antenna1 r < nAnt /\ antenna2 r < nAnt.

Lemma remap_shaped g data : shaped data -> shaped (map (remap g) data).
Proof.
  intros (H1 & H2). split; intros r I; apply in_map_iff in I; destruct I as (r0 & <- & I); cbn.
  - rewrite imap_length. now apply H1.
  - now apply H2.
Qed.
Lemma app_shaped o data : shaped data -> shaped (app_data o data).
Proof. apply remap_shaped. Qed.
Lemma app_meta_length o meta : length (app_meta o meta) = length meta.
Proof. apply imap_length. Qed.

Lemma upd_imap {A} (l : list A) i x g : nth_error l i = Some x -> upd l i (g x) = imap (fun j y => if j =? i then g y else y) l.
Proof.
  intros H. apply nth_error_ext. intros j. rewrite imap_nth. destruct (Nat.eqb_spec j i) as [->|N].
  - rewrite upd_same by now apply nth_lt in H. now rewrite H.
  - rewrite upd_diff by congruence. now destruct (nth_error l j).
Qed.

Lemma slot_lt o : valid o -> slot o < nPol * (nChan + nAnt).
Proof. destruct o as [i f|p a f]; cbn; [nia|]. intros (Hp & Ha). nia. Qed.

Lemma meta_div_ok meta o : slot o < length meta -> meta_div meta (slot o) (fac o) = Ok (app_meta o meta).
Proof.
  intros H. unfold meta_div. destruct (rd_ok meta (slot o) H) as (x & E & Ex). rewrite E. cbn [bind]. rewrite wr_ok by trivial. f_equal.
  exact (upd_imap meta (slot o) x (fun y => to32 (div64 (to64 y) (fac o))) Ex).
Qed.

Lemma row_ext (r : drow cd) (vis vis' : list cd) : (forall i v, nth_error (visibilities r) i = Some v -> nth_error vis i = nth_error vis' i) ->
  length vis = length (visibilities r) -> length vis' = length (visibilities r) ->
  DRow (antenna1 r) (antenna2 r) vis = DRow (antenna1 r) (antenna2 r) vis'.
Proof.
  intros H L L'. f_equal. apply nth_error_ext. intros i. destruct (nth_error (visibilities r) i) as [v|] eqn:E; [now apply (H i v)|].
  apply nth_error_None in E. rewrite (proj2 (nth_error_None vis i)), (proj2 (nth_error_None vis' i)) by lia. reflexivity.
Qed.

Lemma change_channel data meta i f : shaped data -> nPol * (nChan + nAnt) <= length meta -> i < n ->
  changeChannelFactor data meta i f = Ok (app_data (Chan i f) data, app_meta (Chan i f) meta).
Proof.
  intros (H & _) Hm Hi. unfold changeChannelFactor. pose proof (meta_div_ok meta (Chan i f) ltac:(cbn; nia)) as Q. cbn [slot fac] in Q. rewrite Q. cbn [bind].
  rewrite (upd_chan _ n) by trivial. cbn [bind]. do 2 f_equal.
  unfold app_data. apply map_ext_in. intros r I. unfold remap. apply row_ext; rewrite ?imap_length; trivial.
  intros j v E. rewrite !imap_nth, E. cbn. now destruct (j =? i).
Qed.

Lemma pol_iter (r : drow cd) (f : f64) pol k : length (visibilities r) = n -> pol < nPol ->
  foldM (fun r _ => foldM (fun r ch => upd_vis r (ch * nPol + pol) (fun v => cmul v f)) (seq 0 nChan) r) (seq 0 k) r =
  Ok (DRow (antenna1 r) (antenna2 r) (imap (fun i v => sc f (if i mod nPol =? pol then k else 0) v) (visibilities r))).
Proof.
  intros Len Hp.
  destruct (foldM_seq (fun r (_ : nat) => foldM (fun r ch => upd_vis r (ch * nPol + pol) (fun v => cmul v f)) (seq 0 nChan) r)
    (fun k r' => r' = DRow (antenna1 r) (antenna2 r) (imap (fun i v => sc f (if i mod nPol =? pol then k else 0) v) (visibilities r))) k r)
    as (r' & E & Q).
  - destruct r as [a1 a2 vis]. cbn. f_equal. apply nth_error_ext. intros i. rewrite imap_nth. destruct (nth_error vis i); cbn; trivial. now destruct (_ =? _).
  - intros i s _ ->. eexists. split; [|reflexivity]. rewrite upd_pol by (cbn; rewrite ?imap_length; trivial). cbn. f_equal.
    apply row_ext; rewrite ?imap_length; trivial. intros j v E. rewrite !imap_nth, E. cbn. now destruct (_ =? _).
  - now rewrite E, Q.
Qed.

Lemma change_antenna data meta a pol f : shaped data -> nPol * (nChan + nAnt) <= length meta -> a < nAnt -> pol < nPol ->
  changeAntennaFactor nPol nChan data meta a nAnt pol f = Ok (app_data (Ant pol a f) data, app_meta (Ant pol a f) meta).
Proof.
  intros (H & _) Hm Ha Hp. unfold changeAntennaFactor. pose proof (slot_lt (Ant pol a f) ltac:(now cbn)).
  pose proof (meta_div_ok meta (Ant pol a f) ltac:(lia)) as Q. cbn [slot fac] in Q. rewrite Q.
  cbn [bind]. erewrite (mapM_map _ (remap (fun r i => sc f (hits (Ant pol a f) r i)))); [reflexivity|].
  intros r I. apply pol_iter; auto.
Qed.

(** ** Largest components *)
Definition crosses (data : list (drow cd)) : list (drow cd) := filter is_cross data.
Definition chan_max (i : nat) (data : list (drow cd)) : f64 := maxf (map local_max (of_chan i (crosses data))).

Lemma largest_component_eq i data : rows_of n data -> i < n -> largest_component i data = Ok (chan_max i data).
Proof.
  intros H Hi. unfold largest_component, chan_max, maxf, of_chan, crosses. rewrite fold_left_map. generalize zero64.
  induction data as [|r data IH]; intros m; cbn [foldM filter flat_map fold_left]; trivial.
  assert (H' : rows_of n data) by (intros x I; apply H; now right). destruct (is_cross r); cbn [bind]; [|now apply IH].
  destruct (rd_ok (visibilities r) i) as (v & E1 & E2); [rewrite (H r); [trivial|now left]|].
  cbn [flat_map]. rewrite E1, E2. cbn [bind app fold_left]. now apply IH.
Qed.

Definition add_inc (f : f64) (s : f64) (v : cd) : f64 := let a := abs_sum (cmul v f) in if is_finite a then add64 s a else s.
Definition chan_inc (i : nat) (f : f64) (data : list (drow cd)) : f64 := fold_left (add_inc f) (of_chan i (crosses data)) zero64.

Lemma channel_increase_eq i f data : rows_of n data -> i < n -> channel_increase i f data = Ok (chan_inc i f data).
Proof.
  intros H Hi. unfold channel_increase, chan_inc, of_chan, crosses. generalize zero64.
  induction data as [|r data IH]; intros m; cbn [foldM filter flat_map fold_left]; trivial.
  assert (H' : rows_of n data) by (intros x I; apply H; now right). destruct (is_cross r); cbn [bind]; [|now apply IH].
  destruct (rd_ok (visibilities r) i) as (v & E1 & E2); [rewrite (H r); [trivial|now left]|].
  cbn [flat_map]. rewrite E1, E2. cbn [bind app fold_left]. now apply IH.
Qed.

Definition chan_choice (pol : nat) (L : f64) (data : list (drow cd)) (s : f64 * nat * f64) (channel : nat) : f64 * nat * f64 :=
  let '(best, ch, cfac) := s in
  let factor := gain_factor L (chan_max (channel * nPol + pol) data) in
  let inc := chan_inc (channel * nPol + pol) factor data in
  if Bltb best inc then (inc, channel, add64 factor one64) else (best, ch, cfac).

Lemma best_channel_eq pol L data : rows_of n data -> pol < nPol ->
  best_channel nPol nChan pol L data = Ok (fold_left (chan_choice pol L data) (seq 0 nChan) (zero64, 0, one64)).
Proof.
  intros H Hp. unfold best_channel. apply foldM_pure. intros [[best ch] cfac] i I. apply in_seq in I.
  assert (i * nPol + pol < n) by (apply stride_lt; lia).
  rewrite largest_component_eq by trivial. cbn [bind]. rewrite channel_increase_eq by trivial. reflexivity.
Qed.

(** the samples of an antenna *)
Definition of_ant (pol a : nat) (data : list (drow cd)) : list cd :=
  flat_map (fun r => if (uses r a =? 0) then [] else of_pol nPol nChan pol (visibilities r)) (crosses data).
Definition ant_max (pol a : nat) (data : list (drow cd)) : f64 := maxf (map local_max (of_ant pol a data)).

(** a loop over the samples of one row *)
Lemma foldM_of_pol_gen {S} pol (vis : list cd) (f : S -> cd -> res S) : length vis = n -> pol < nPol -> forall s,
  foldM (fun s ch => do v <- rd vis (ch * nPol + pol); f s v) (seq 0 nChan) s = foldM f (of_pol nPol nChan pol vis) s.
Proof.
  intros Len Hp. unfold of_pol. assert (R : forall ch, In ch (seq 0 nChan) -> ch * nPol + pol < length vis).
  { intros ch I. apply in_seq in I. rewrite Len. apply stride_lt; lia. }
  revert R. induction (seq 0 nChan) as [|ch l IH]; intros R s; cbn [foldM flat_map]; trivial.
  destruct (rd_ok vis (ch * nPol + pol)) as (v & E1 & E2); [apply R; now left|]. rewrite E1, E2. cbn [bind app foldM].
  destruct (f s v); cbn [bind]; trivial. apply IH. intros; apply R; now right.
Qed.

(** a vector of antennas that is changed by the cross-correlation rows *)
Lemma ant_loop (f : drow cd -> list f64 -> res (list f64)) (g : nat -> f64 -> cd -> f64) pol data : pol < nPol -> shaped data ->
  (forall r l, In r data -> is_cross r = true -> length l = nAnt -> exists l', f r l = Ok l' /\ length l' = nAnt /\
    forall a x, a < nAnt -> nth_error l a = Some x ->
      nth_error l' a = Some (if uses r a =? 0 then x else fold_left (g a) (of_pol nPol nChan pol (visibilities r)) x)) ->
  exists l', foldM (fun l r => if is_cross r then f r l else Ok l) data (repeat zero64 nAnt) = Ok l' /\ length l' = nAnt /\
    forall a, a < nAnt -> nth_error l' a = Some (fold_left (g a) (of_ant pol a data) zero64).
Proof.
  intros Hp Hs Hf. unfold of_ant, crosses.
  assert (G : forall l x0, length l = nAnt -> (forall a, a < nAnt -> nth_error l a = Some (x0 a)) ->
    exists l', foldM (fun l r => if is_cross r then f r l else Ok l) data l = Ok l' /\ length l' = nAnt /\
    forall a, a < nAnt -> nth_error l' a = Some (fold_left (g a)
      (flat_map (fun r => if (uses r a =? 0) then [] else of_pol nPol nChan pol (visibilities r)) (filter is_cross data)) (x0 a))).
  { clear Hs. induction data as [|r data IH]; intros l x0 Hl H0; cbn [foldM filter flat_map fold_left]; [eauto|].
    assert (Hf' : forall r l, In r data -> is_cross r = true -> length l = nAnt -> exists l', f r l = Ok l' /\ length l' = nAnt /\
      forall a x, a < nAnt -> nth_error l a = Some x ->
        nth_error l' a = Some (if uses r a =? 0 then x else fold_left (g a) (of_pol nPol nChan pol (visibilities r)) x))
      by (intros; apply Hf; trivial; now right).
    destruct (is_cross r) eqn:Cr; cbn [bind]; [|now apply IH].
    destruct (Hf r l) as (l' & E & Hl' & H'); trivial; [now left|]. rewrite E. cbn [bind].
    destruct (IH Hf' l' (fun a => if uses r a =? 0 then x0 a else fold_left (g a) (of_pol nPol nChan pol (visibilities r)) (x0 a)) Hl')
      as (l2 & E2 & Hl2 & H2).
    { intros a Ha. now rewrite (H' a (x0 a)) by auto. }
    exists l2. split; trivial. split; trivial. intros a Ha. rewrite (H2 a Ha). f_equal. cbn [flat_map]. rewrite fold_left_app.
    now destruct (uses r a =? 0). }
  apply (G (repeat zero64 nAnt) (fun _ => zero64)); [apply repeat_length|]. intros a Ha. now rewrite nth_error_repeat.
Qed.

Lemma pair_loop (r : drow cd) (g : nat -> f64 -> cd -> f64) (f : list f64 -> cd -> res (list f64)) vs : is_cross r = true ->
  antenna1 r < nAnt -> antenna2 r < nAnt ->
  (forall l v x1 x2, length l = nAnt -> nth_error l (antenna1 r) = Some x1 -> nth_error l (antenna2 r) = Some x2 ->
     f l v = Ok (upd (upd l (antenna1 r) (g (antenna1 r) x1 v)) (antenna2 r) (g (antenna2 r) x2 v))) ->
  forall l, length l = nAnt -> exists l', foldM f vs l = Ok l' /\ length l' = nAnt /\
    forall a x, a < nAnt -> nth_error l a = Some x -> nth_error l' a = Some (if uses r a =? 0 then x else fold_left (g a) vs x).
Proof.
  intros Cr H1 H2 Hf. apply Bool.negb_true_iff, Nat.eqb_neq in Cr.
  induction vs as [|v vs IH]; intros l Hl; cbn [foldM fold_left].
  - exists l. split; trivial. split; trivial. intros a x _ E. now destruct (uses r a =? 0).
  - destruct (nth_some l (antenna1 r)) as (x1 & E1); [lia|]. destruct (nth_some l (antenna2 r)) as (x2 & E2); [lia|].
    rewrite (Hf l v x1 x2) by trivial. cbn [bind].
    destruct (IH (upd (upd l (antenna1 r) (g (antenna1 r) x1 v)) (antenna2 r) (g (antenna2 r) x2 v))) as (l' & E & Hl' & H); [now rewrite !upd_length|].
    exists l'. split; trivial. split; trivial. intros a x Ha Ex.
    destruct (Nat.eq_dec (antenna2 r) a) as [A2|A2]; [|destruct (Nat.eq_dec (antenna1 r) a) as [A1|A1]].
    + assert (U : (uses r a =? 0) = false). { unfold uses. rewrite A2, Nat.eqb_refl. now destruct (antenna1 r =? a). }
      rewrite (H a (g a x v)); trivial; [now rewrite U|]. rewrite A2 in E2. rewrite E2 in Ex. injection Ex as ->. rewrite A2. apply upd_same. rewrite upd_length. lia.
    + assert (U : (uses r a =? 0) = false). { unfold uses. now rewrite A1, Nat.eqb_refl. }
      rewrite (H a (g a x v)); trivial; [now rewrite U|]. rewrite A1 in E1. rewrite E1 in Ex. injection Ex as ->. rewrite upd_diff by trivial. rewrite A1. apply upd_same. lia.
    + assert (U : (uses r a =? 0) = true). { unfold uses. now rewrite (proj2 (Nat.eqb_neq _ _) A1), (proj2 (Nat.eqb_neq _ _) A2). }
      rewrite (H a x); trivial; [now rewrite U|]. now rewrite !upd_diff by trivial.
Qed.

Lemma antenna_max_eq pol data : pol < nPol -> shaped data ->
  exists l, antenna_max nPol nChan pol nAnt data = Ok l /\ length l = nAnt /\ forall a, a < nAnt -> nth_error l a = Some (ant_max pol a data).
Proof.
  intros Hp Hs. unfold antenna_max.
  pose (g := fun (r : drow cd) (l : list f64) (v : cd) => let c := local_max v in
      if is_finite c then
        do m1 <- rd l (antenna1 r);
        do l <- (if Bltb m1 c then wr l (antenna1 r) c else Ok l);
        do m2 <- rd l (antenna2 r);
        (if Bltb m2 c then wr l (antenna2 r) c else Ok l)
      else Ok l).
  pose (f := fun (r : drow cd) (l : list f64) => foldM (fun l ch => do v <- rd (visibilities r) (ch * nPol + pol); g r l v) (seq 0 nChan) l).
  destruct (ant_loop f (fun _ m v => pick m (local_max v)) pol data Hp Hs) as (l & E & Hl & H).
  - intros r l I Cr Hl. subst f. cbn beta. destruct Hs as (Hr & Ha). destruct (Ha r I) as (A1 & A2).
    rewrite (foldM_of_pol_gen pol (visibilities r) (g r)) by auto. subst g. cbn beta.
    apply (pair_loop r (fun _ m v => pick m (local_max v))); trivial. clear l Hl. intros l v x1 x2 Hl E1 E2. cbn zeta.
    assert (N : antenna1 r <> antenna2 r) by now apply Bool.negb_true_iff, Nat.eqb_neq in Cr.
    assert (K : forall (l : list f64) i x, nth_error l i = Some x -> upd l i x = l).
    { intros l0 i x E. apply nth_error_ext. intros j. destruct (Nat.eq_dec i j) as [->|Q]; [rewrite upd_same by (now apply nth_lt in E); congruence|now rewrite upd_diff]. }
    unfold pick. destruct (is_finite (local_max v)); cbn [andb].
    + unfold rd at 1. rewrite E1. cbn [bind]. destruct (Bltb x1 (local_max v)) eqn:B1.
      * rewrite wr_ok by lia. cbn [bind]. unfold rd. rewrite upd_diff by trivial. rewrite E2. cbn [bind]. destruct (Bltb x2 (local_max v)) eqn:B2.
        -- rewrite wr_ok by (rewrite upd_length; lia). reflexivity.
        -- rewrite (K _ (antenna2 r) x2); trivial. now rewrite upd_diff.
      * cbn [bind]. unfold rd. rewrite E2. cbn [bind]. rewrite (K l (antenna1 r) x1) by trivial. destruct (Bltb x2 (local_max v)) eqn:B2.
        -- now rewrite wr_ok by lia.
        -- now rewrite (K l (antenna2 r) x2) by trivial.
    + now rewrite (K l (antenna1 r) x1), (K l (antenna2 r) x2) by trivial.
  - exists l. split; trivial. split; trivial. intros a Ha. rewrite (H a Ha). unfold ant_max, maxf. now rewrite fold_left_map.
Qed.

Definition ant_inc (pol : nat) (L : f64) (a : nat) (data : list (drow cd)) : f64 :=
  fold_left (add_inc (gain_factor L (ant_max pol a data))) (of_ant pol a data) zero64.

Lemma antenna_increase_eq pol L maxc data : pol < nPol -> shaped data ->
  (forall a, a < nAnt -> nth_error maxc a = Some (ant_max pol a data)) ->
  exists l, antenna_increase nPol nChan pol nAnt L maxc data = Ok l /\ length l = nAnt /\ forall a, a < nAnt -> nth_error l a = Some (ant_inc pol L a data).
Proof.
  intros Hp Hs Hm. unfold antenna_increase.
  pose (g := fun (r : drow cd) (m1 m2 : f64) (l : list f64) (v : cd) =>
    do l <- add_at l (antenna1 r) (abs_sum (cmul v (gain_factor L m1))); add_at l (antenna2 r) (abs_sum (cmul v (gain_factor L m2)))).
  pose (f := fun (r : drow cd) (l : list f64) => do m1 <- rd maxc (antenna1 r); do m2 <- rd maxc (antenna2 r);
    foldM (fun l ch => do v <- rd (visibilities r) (ch * nPol + pol); g r m1 m2 l v) (seq 0 nChan) l).
  destruct (ant_loop f (fun a => add_inc (gain_factor L (ant_max pol a data))) pol data Hp Hs) as (l & E & Hl & H).
  - intros r l I Cr Hl. subst f. cbn beta. destruct Hs as (Hr & Ha). destruct (Ha r I) as (A1 & A2).
    unfold rd at 1. rewrite (Hm _ A1). cbn [bind]. unfold rd at 1. rewrite (Hm _ A2). cbn [bind].
    rewrite (foldM_of_pol_gen pol (visibilities r) (g r (ant_max pol (antenna1 r) data) (ant_max pol (antenna2 r) data))) by auto. subst g. cbn beta.
    set (g1 := gain_factor L (ant_max pol (antenna1 r) data)). set (g2 := gain_factor L (ant_max pol (antenna2 r) data)).
    apply (pair_loop r (fun a => add_inc (gain_factor L (ant_max pol a data)))); trivial. clear l Hl. intros l v x1 x2 Hl E1 E2. fold g1 g2.
    assert (N : antenna1 r <> antenna2 r) by now apply Bool.negb_true_iff, Nat.eqb_neq in Cr.
    assert (K : forall (l : list f64) i x, nth_error l i = Some x -> upd l i x = l).
    { intros l0 i x E. apply nth_error_ext. intros j. destruct (Nat.eq_dec i j) as [->|Q]; [rewrite upd_same by (now apply nth_lt in E); congruence|now rewrite upd_diff]. }
    unfold add_at, add_inc. destruct (is_finite (abs_sum (cmul v g1))).
    + unfold rd at 1. rewrite E1. cbn [bind]. rewrite wr_ok by lia. cbn [bind]. destruct (is_finite (abs_sum (cmul v g2))).
      * unfold rd. rewrite upd_diff, E2 by trivial. cbn [bind]. now rewrite wr_ok by (rewrite upd_length; lia).
      * rewrite (K _ (antenna2 r) x2); trivial. now rewrite upd_diff.
    + cbn [bind]. rewrite (K l (antenna1 r) x1) by trivial. destruct (is_finite (abs_sum (cmul v g2))).
      * unfold rd. rewrite E2. cbn [bind]. now rewrite wr_ok by lia.
      * now rewrite (K l (antenna2 r) x2) by trivial.
  - exists l. split; trivial. split; trivial.
Qed.

Definition ant_choice (pol : nat) (L : f64) (data : list (drow cd)) (s : f64 * nat) (a : nat) : f64 * nat :=
  let '(best, ant) := s in let x := ant_inc pol L a data in if Bltb best x then (x, a) else (best, ant).

Lemma best_antenna_eq pol L data inc : (forall a, a < nAnt -> nth_error inc a = Some (ant_inc pol L a data)) ->
  best_antenna nAnt inc = Ok (fold_left (ant_choice pol L data) (seq 0 nAnt) (zero64, 0)).
Proof.
  intros H. unfold best_antenna. apply foldM_pure. intros [best ant] a I. apply in_seq in I. unfold rd. rewrite H by lia. reflexivity.
Qed.

Definition ant_factor (L m : f64) : f64 := if is0 m then one64 else div64 L m.

(** what a round does *)
Definition decide (pol : nat) (L : f64) (data : list (drow cd)) : option (op * bool) :=
  let '(bestC, ch, cfac) := fold_left (chan_choice pol L data) (seq 0 nChan) (zero64, 0, one64) in
  let '(bestA, a) := fold_left (ant_choice pol L data) (seq 0 nAnt) (zero64, 0) in
  if Bltb bestC bestA then
    let f := ant_factor L (ant_max pol a data) in
    if Bltb f one64 then None else Some (Ant pol a f, Bltb lit_1_01 f)
  else if Bltb cfac one64 then None else Some (Chan (ch * nPol + pol) cfac, Bltb lit_1_001 cfac).

(** the choices are among the channels and antennas *)
Lemma chan_choice_inv pol L data best ch cfac : fold_left (chan_choice pol L data) (seq 0 nChan) (zero64, 0, one64) = (best, ch, cfac) ->
  (best, ch, cfac) = (zero64, 0, one64) \/ ch < nChan /\ Bltb zero64 best = true /\
    let i := ch * nPol + pol in best = chan_inc i (gain_factor L (chan_max i data)) data /\ cfac = add64 (gain_factor L (chan_max i data)) one64.
Proof.
  intros E.
  assert (G : forall l s, (forall x, In x l -> x < nChan) ->
    (s = (zero64, 0, one64) \/ snd (fst s) < nChan /\ Bltb zero64 (fst (fst s)) = true /\ let i := snd (fst s) * nPol + pol in
       fst (fst s) = chan_inc i (gain_factor L (chan_max i data)) data /\ snd s = add64 (gain_factor L (chan_max i data)) one64) ->
    let s := fold_left (chan_choice pol L data) l s in
    (s = (zero64, 0, one64) \/ snd (fst s) < nChan /\ Bltb zero64 (fst (fst s)) = true /\ let i := snd (fst s) * nPol + pol in
       fst (fst s) = chan_inc i (gain_factor L (chan_max i data)) data /\ snd s = add64 (gain_factor L (chan_max i data)) one64)).
  { induction l as [|x l IH]; intros s Hl Hs; cbn [fold_left]; trivial. apply IH; [intros; apply Hl; now right|].
    destruct s as [[b c] f]. unfold chan_choice. destruct (Bltb b _) eqn:B; [|exact Hs]. right. cbn [fst snd] in *. split; [apply Hl; now left|]. split; [|now split].
    destruct Hs as [[= -> -> ->]|(_ & P & _)]; trivial. apply Bltb_Bleb_trans with b; trivial. now apply Bltb_Bleb. }
  specialize (G (seq 0 nChan) (zero64, 0, one64)). rewrite E in G. cbn [fst snd] in G. apply G; [intros x I; apply in_seq in I; lia|now left].
Qed.

Lemma ant_choice_inv pol L data best a : fold_left (ant_choice pol L data) (seq 0 nAnt) (zero64, 0) = (best, a) ->
  (best, a) = (zero64, 0) \/ a < nAnt /\ Bltb zero64 best = true /\ best = ant_inc pol L a data.
Proof.
  intros E.
  assert (G : forall l s, (forall x, In x l -> x < nAnt) ->
    (s = (zero64, 0) \/ snd s < nAnt /\ Bltb zero64 (fst s) = true /\ fst s = ant_inc pol L (snd s) data) ->
    let s := fold_left (ant_choice pol L data) l s in
    (s = (zero64, 0) \/ snd s < nAnt /\ Bltb zero64 (fst s) = true /\ fst s = ant_inc pol L (snd s) data)).
  { induction l as [|x l IH]; intros s Hl Hs; cbn [fold_left]; trivial. apply IH; [intros; apply Hl; now right|].
    destruct s as [b c]. unfold ant_choice. destruct (Bltb b _) eqn:B; [|exact Hs]. right. cbn [fst snd] in *. split; [apply Hl; now left|]. split; [|trivial].
    destruct Hs as [[= -> ->]|(_ & P & _)]; trivial. apply Bltb_Bleb_trans with b; trivial. now apply Bltb_Bleb. }
  specialize (G (seq 0 nAnt) (zero64, 0)). rewrite E in G. cbn [fst snd] in G. apply G; [intros x I; apply in_seq in I; lia|now left].
Qed.

Lemma ant_chosen pol L data bestC ch cfac bestA a :
  fold_left (chan_choice pol L data) (seq 0 nChan) (zero64, 0, one64) = (bestC, ch, cfac) ->
  fold_left (ant_choice pol L data) (seq 0 nAnt) (zero64, 0) = (bestA, a) -> Bltb bestC bestA = true ->
  a < nAnt /\ Bltb zero64 bestA = true /\ bestA = ant_inc pol L a data.
Proof.
  intros EC EA B. apply ant_choice_inv in EA. destruct EA as [[= -> ->]|H]; trivial. exfalso.
  apply chan_choice_inv in EC. destruct EC as [[= -> -> ->]|(_ & P & _)]; [discriminate|].
  pose proof (Bltb_Bleb_trans _ _ _ P (Bltb_Bleb _ _ B)) as Q. discriminate.
Qed.

Lemma decide_valid pol L data o g : pol < nPol -> 0 < nChan -> decide pol L data = Some (o, g) -> valid o.
Proof.
  intros Hp Hc. unfold decide. destruct (fold_left (chan_choice _ _ _) _ _) as [[bestC ch] cfac] eqn:EC.
  destruct (fold_left (ant_choice _ _ _) _ _) as [bestA a] eqn:EA. destruct (Bltb bestC bestA) eqn:B.
  - destruct (Bltb (ant_factor _ _) _); [discriminate|]. intros [= <- _]. cbn. split; trivial. eapply ant_chosen; eassumption.
  - destruct (Bltb cfac one64); [discriminate|]. intros [= <- _]. cbn.
    apply chan_choice_inv in EC. destruct EC as [[= -> -> ->]|(Hch & _)]; apply stride_lt; lia.
Qed.

Lemma fit_step_eq pol L data meta : shaped data -> nPol * (nChan + nAnt) <= length meta -> pol < nPol -> 0 < nChan ->
  fit_step nPol nChan pol nAnt L data meta =
  Ok (match decide pol L data with None => (data, meta, false) | Some (o, g) => (app_data o data, app_meta o meta, g) end).
Proof.
  intros Hs Hm Hp Hc. pose proof (decide_valid pol L data) as V. unfold fit_step. rewrite best_channel_eq by (try apply Hs; trivial).
  unfold decide in *. destruct (fold_left (chan_choice _ _ _) _ _) as [[bestC ch] cfac] eqn:EC. cbn [bind].
  destruct (antenna_max_eq pol data Hp Hs) as (maxc & E1 & _ & M1). rewrite E1. cbn [bind].
  destruct (antenna_increase_eq pol L maxc data Hp Hs M1) as (inc & E2 & _ & M2). rewrite E2. cbn [bind].
  rewrite (best_antenna_eq pol L data) by trivial.
  destruct (fold_left (ant_choice _ _ _) _ _) as [bestA a] eqn:EA. cbn [bind].
  destruct (Bltb bestC bestA) eqn:B.
  - destruct (ant_chosen pol L data bestC ch cfac bestA a EC EA B) as (Ha & _).
    unfold rd. rewrite (M1 a Ha). cbn [bind]. fold (ant_factor L (ant_max pol a data)).
    destruct (Bltb (ant_factor _ _) one64) eqn:B1; trivial. now rewrite change_antenna by trivial.
  - destruct (Bltb cfac one64) eqn:B1; trivial. rewrite change_channel; trivial. exact (V _ _ Hp Hc eq_refl).
Qed.

(** ** Fitting the channels first *)
Lemma of_chan_remap g h i data : (forall r v, In r data -> is_cross r = true -> g r i v = h v) ->
  of_chan i (crosses (map (remap g) data)) = map h (of_chan i (crosses data)).
Proof.
  intros H. unfold of_chan, crosses. induction data as [|r data IH]; cbn [map filter flat_map]; trivial.
  change (is_cross (remap g r)) with (is_cross r). destruct (is_cross r) eqn:C.
  - cbn [flat_map]. rewrite map_app, IH by (intros; apply H; trivial; now right). f_equal. cbn [remap visibilities]. rewrite imap_nth.
    destruct (nth_error (visibilities r) i); cbn [option_map map]; trivial. f_equal. apply H; trivial. now left.
  - apply IH. intros; apply H; trivial; now right.
Qed.

Lemma of_chan_same g i data : (forall r v, g r i v = v) -> of_chan i (crosses (map (remap g) data)) = of_chan i (crosses data).
Proof. intros H. rewrite (of_chan_remap g (fun v => v)) by auto. apply map_id. Qed.

Lemma remap_remap g h data : map (remap g) (map (remap h) data) = map (remap (fun r i v => g (remap h r) i (h r i v))) data.
Proof.
  rewrite map_map. apply map_ext. intros r. unfold remap at 1 3. cbn [antenna1 antenna2 remap visibilities]. f_equal.
  apply nth_error_ext. intros i. rewrite !imap_nth. now destruct (nth_error (visibilities r) i).
Qed.

Lemma remap_ext g h data : (forall r i v, In r data -> nth_error (visibilities r) i = Some v -> g r i v = h r i v) -> map (remap g) data = map (remap h) data.
Proof.
  intros H. apply map_ext_in. intros r I. unfold remap. f_equal. apply nth_error_ext. intros i. rewrite !imap_nth.
  destruct (nth_error (visibilities r) i) eqn:E; cbn; trivial. now rewrite (H r i c I E).
Qed.

Lemma remap_id data : map (remap (fun _ _ v => v)) data = data.
Proof.
  rewrite <- (map_id data) at 2. apply map_ext. intros [a1 a2 vis]. unfold remap. cbn. f_equal. apply nth_error_ext. intros i. rewrite imap_nth.
  now destruct (nth_error vis i).
Qed.

Definition fit1 (L : f64) (data : list (drow cd)) : list (drow cd) :=
  map (remap (fun _ i v => cmul v (channel_factor L (chan_max i data)))) data.
Definition fit1_meta (L : f64) (data : list (drow cd)) (meta : list f32) : list f32 :=
  @imap f32 f32 (fun j (x : f32) => if j <? n then to32 (div64 (to64 x) (channel_factor L (chan_max j data))) else x) meta.

Lemma fit_channels_eq L data meta : shaped data -> nPol * (nChan + nAnt) <= length meta ->
  fit_channels n L data meta = Ok (fit1 L data, fit1_meta L data meta).
Proof.
  intros Hs Hm. unfold fit_channels.
  pose (d := fun k => map (remap (fun _ i v => if i <? k then cmul v (channel_factor L (chan_max i data)) else v)) data).
  pose (m := fun k => @imap f32 f32 (fun j (x : f32) => if j <? k then to32 (div64 (to64 x) (channel_factor L (chan_max j data))) else x) meta).
  destruct (foldM_seq (fun '(data, meta) i => do m <- largest_component i data; changeChannelFactor data meta i (channel_factor L m))
    (fun k s => s = (d k, m k)) n (data, meta)) as (s & E & ->).
  - f_equal.
    + unfold d. symmetry. exact (remap_id data).
    + unfold m. apply nth_error_ext. intros i. rewrite imap_nth. now destruct (nth_error meta i).
  - intros i s Hi ->. assert (Hd : shaped (d i)) by now apply remap_shaped.
    rewrite largest_component_eq by (try apply Hd; trivial). cbn [bind].
    replace (chan_max i (d i)) with (chan_max i data).
    2: { unfold chan_max, d. rewrite of_chan_same; trivial. intros r v. now rewrite Nat.ltb_irrefl. }
    rewrite change_channel; trivial; [|unfold m; now rewrite imap_length]. eexists. split; [reflexivity|]. f_equal.
    + unfold app_data, d. rewrite remap_remap. apply remap_ext. intros r j v _ _. cbn [fac hits].
      destruct (Nat.eqb_spec j i) as [->|N].
      * rewrite Nat.ltb_irrefl. rewrite (proj2 (Nat.ltb_lt i (S i))) by lia. reflexivity.
      * cbn. destruct (Nat.ltb_spec j i), (Nat.ltb_spec j (S i)); trivial; lia.
    + unfold app_meta, m. apply nth_error_ext. intros j. rewrite !imap_nth. destruct (nth_error meta j); cbn [option_map slot fac]; trivial. f_equal.
      destruct (Nat.eqb_spec j i) as [->|N].
      * rewrite Nat.ltb_irrefl. rewrite (proj2 (Nat.ltb_lt i (S i))) by lia. reflexivity.
      * destruct (Nat.ltb_spec j i), (Nat.ltb_spec j (S i)); trivial; lia.
  - rewrite E. f_equal. f_equal. unfold d, fit1. apply remap_ext. intros r i v I Ev. apply nth_lt in Ev. rewrite (proj1 Hs r I) in Ev.
    now rewrite (proj2 (Nat.ltb_lt i n) Ev).
Qed.

(** ** The loop *)
Fixpoint run (fuel : nat) (pol : nat) (L : f64) (data : list (drow cd)) (meta : list f32) : option (list (drow cd) * list f32) :=
  match fuel with
  | O => None
  | S fuel => match decide pol L data with
      | None => Some (data, meta)
      | Some (o, true) => run fuel pol L (app_data o data) (app_meta o meta)
      | Some (o, false) => Some (app_data o data, app_meta o meta)
      end
  end.

Lemma fit_loop_eq fuel pol L : pol < nPol -> 0 < nChan -> forall data meta, shaped data -> nPol * (nChan + nAnt) <= length meta ->
  fit_loop fuel nPol nChan pol nAnt L data meta = option_map Ok (run fuel pol L data meta).
Proof.
  intros Hp Hc. induction fuel as [|fuel IH]; intros data meta Hs Hm; cbn [fit_loop run]; trivial.
  rewrite fit_step_eq by trivial. destruct (decide pol L data) as [[o g]|]; trivial. destruct g; trivial.
  apply IH; [now apply app_shaped|now rewrite app_meta_length].
Qed.

Fixpoint runs (fuel : nat) (L : f64) (pols : list nat) (data : list (drow cd)) (meta : list f32) : option (list (drow cd) * list f32) :=
  match pols with
  | [] => Some (data, meta)
  | pol :: t => match run fuel pol L data meta with Some (data, meta) => runs fuel L t data meta | None => None end
  end.

Lemma run_shaped fuel pol L : forall data meta data' meta', run fuel pol L data meta = Some (data', meta') -> shaped data ->
  shaped data' /\ length meta' = length meta.
Proof.
  induction fuel as [|fuel IH]; intros data meta data' meta'; cbn [run]; [discriminate|]. destruct (decide pol L data) as [[o [|]]|].
  - intros E Hs. apply IH in E; [|now apply app_shaped]. now rewrite app_meta_length in E.
  - intros [= <- <-] Hs. split; [now apply app_shaped|apply app_meta_length].
  - intros [= <- <-] Hs. auto.
Qed.

Lemma fit_pols_eq fuel L pols : 0 < nChan -> (forall p, In p pols -> p < nPol) -> forall data meta, shaped data -> nPol * (nChan + nAnt) <= length meta ->
  fit_pols fuel nPol nChan nAnt L pols data meta = option_map Ok (runs fuel L pols data meta).
Proof.
  intros Hc. induction pols as [|p pols IH]; intros Hp data meta Hs Hm; cbn [fit_pols runs]; trivial.
  rewrite fit_loop_eq by (trivial; apply Hp; now left). destruct (run fuel p L data meta) as [[data' meta']|] eqn:E; cbn [option_map]; trivial.
  apply run_shaped in E; trivial. destruct E as (Hs' & Hm'). apply IH; trivial; [intros; apply Hp; now right|lia].
Qed.

Lemma fit_eq fuel L data meta : shaped data -> nPol * (nChan + nAnt) <= length meta -> 0 < nChan ->
  fitToMaximum fuel nPol nChan nAnt L data meta = option_map Ok (runs fuel L (seq 0 nPol) (fit1 L data) (fit1_meta L data meta)).
Proof.
  intros Hs Hm Hc. unfold fitToMaximum. rewrite fit_channels_eq by trivial. apply fit_pols_eq; trivial.
  - intros p I. apply in_seq in I. lia.
  - now apply remap_shaped.
  - unfold fit1_meta. now rewrite imap_length.
Qed.

(** ** The first normalization *)
Lemma firstn_S' {A} (l : list A) k x : nth_error l k = Some x -> firstn (S k) l = firstn k l ++ [x].
Proof. revert k. induction l as [|y l IH]; intros [|k] E; try discriminate; cbn in *; [congruence|]. f_equal. now apply IH. Qed.
Lemma skipn_cons' {A} (l : list A) k x : nth_error l k = Some x -> skipn k l = x :: skipn (S k) l.
Proof. revert k. induction l as [|y l IH]; intros [|k] E; try discriminate; cbn in *; [congruence|]. now apply IH. Qed.
Lemma upd_app_cons {A} (l l' : list A) x y : upd (l ++ x :: l') (length l) y = l ++ y :: l'.
Proof. induction l as [|z l IH]; cbn; [reflexivity|]. now rewrite IH. Qed.

Definition chan_rms (i : nat) (data : list (drow cd)) : f64 := RMS (fold_left Include (of_chan i data) no_meas).

Lemma channel_meas_eq data : rows_of n data -> exists ms, channel_meas n data = Ok ms /\ length ms = n /\
  forall i, i < n -> nth_error ms i = Some (fold_left Include (of_chan i data) no_meas).
Proof.
  intros H. unfold channel_meas.
  assert (G : forall l x0, length l = n -> (forall i, i < n -> nth_error l i = Some (x0 i)) ->
    exists ms, foldM (fun l r => foldM (fun l i => do v <- rd (visibilities r) i; include_at l i v) (seq 0 n) l) data l = Ok ms /\ length ms = n /\
    forall i, i < n -> nth_error ms i = Some (fold_left Include (of_chan i data) (x0 i))).
  { induction data as [|r data IH]; intros l x0 Hl H0; cbn [foldM]; [eauto|].
    pose (y := fun i => match nth_error (visibilities r) i with Some v => Include (x0 i) v | None => x0 i end).
    destruct (foldM_seq (fun l i => do v <- rd (visibilities r) i; include_at l i v)
      (fun k l => length l = n /\ forall i, i < n -> nth_error l i = Some (if i <? k then y i else x0 i)) n l) as (l' & E & Hl' & H').
    - auto.
    - intros i s Hi (Ls & Hn). destruct (rd_ok (visibilities r) i) as (v & E1 & E2); [rewrite (H r); [trivial|now left]|]. rewrite E1. cbn [bind].
      unfold include_at. unfold rd. rewrite (Hn i Hi), Nat.ltb_irrefl. cbn [bind]. rewrite wr_ok by lia. eexists. split; [reflexivity|].
      split; [now rewrite upd_length|]. intros j Hj. destruct (Nat.eq_dec i j) as [<-|N].
      + rewrite upd_same by lia. rewrite (proj2 (Nat.ltb_lt i (S i))) by lia. unfold y. now rewrite E2.
      + rewrite upd_diff, (Hn j Hj) by trivial. destruct (Nat.ltb_spec j i), (Nat.ltb_spec j (S i)); trivial; lia.
    - rewrite E. cbn [bind]. destruct (IH ltac:(intros x I; apply H; now right) l' y Hl') as (ms & E' & Lm & Hm).
      { intros i Hi. now rewrite (H' i Hi), (proj2 (Nat.ltb_lt i n) Hi). }
      exists ms. split; trivial. split; trivial. intros i Hi. rewrite (Hm i Hi). f_equal. unfold y, of_chan. cbn [flat_map]. rewrite fold_left_app.
      now destruct (nth_error (visibilities r) i). }
  apply (G (repeat no_meas n) (fun _ => no_meas)); [apply repeat_length|]. intros i Hi. now rewrite nth_error_repeat.
Qed.

Definition ch_norm (rms : f64) (v : cd) : cd := if is0 rms then v else cdiv v rms.

Lemma af_channels_eq ms rms data meta : rows_of n data -> (forall i, i < n -> nth_error ms i = Some (rms i)) -> n <= length meta ->
  af_channels n ms data meta = Ok (map (remap (fun _ i v => ch_norm (RMS (rms i)) v)) data,
    @imap f32 f32 (fun j (x : f32) => if (j <? n) && (0 <? length data) then to32 (RMS (rms j)) else x) meta).
Proof.
  intros H Hms Hm. unfold af_channels. set (g := fun (_ : drow cd) i v => ch_norm (RMS (rms i)) v).
  pose (md := fun k => @imap f32 f32 (fun j (x : f32) => if (j <? n) && (0 <? k) then to32 (RMS (rms j)) else x) meta).
  destruct (foldM_seq (fun '(data, meta) r =>
    do row <- rd data r;
    do (row, meta) <- foldM (fun '(row, meta) i =>
      do m <- rd ms i;
      let rms := RMS m in
      do row <- (if is0 rms then Ok row else upd_vis row i (fun v => cdiv v rms));
      do meta <- wr meta i (to32 rms);
      Ok (row, meta)) (seq 0 n) (row, meta);
    do data <- wr data r row;
    Ok (data, meta))
    (fun k s => s = (map (remap g) (firstn k data) ++ skipn k data, md k)) (length data) (data, meta)) as (s & E & ->).
  - cbn. f_equal. unfold md. apply nth_error_ext. intros i. rewrite imap_nth. destruct (nth_error meta i); cbn; trivial. now rewrite Bool.andb_false_r.
  - intros k s Hk ->. destruct (nth_some data k Hk) as (row & Er).
    assert (Er' : nth_error (map (remap g) (firstn k data) ++ skipn k data) k = Some row).
    { rewrite nth_error_app2; rewrite map_length, firstn_length_le by lia; trivial. now rewrite Nat.sub_diag, nth_error_skipn_add, Nat.add_0_r. }
    unfold rd at 1. rewrite Er'. cbn [bind].
    assert (Lr : length (visibilities row) = n) by (apply H; now apply nth_error_In in Er).
    destruct (foldM_seq (fun '(row, meta) i =>
      do m <- rd ms i;
      let rms := RMS m in
      do row <- (if is0 rms then Ok row else upd_vis row i (fun v => cdiv v rms));
      do meta <- wr meta i (to32 rms);
      Ok (row, meta))
      (fun i s => s = (remap (fun r j v => if j <? i then g r j v else v) row,
        @imap f32 f32 (fun j (x : f32) => if j <? i then to32 (RMS (rms j)) else x) (md k))) n (row, md k)) as (s & E & ->).
    + f_equal.
      * destruct row as [a1 a2 vis]. unfold remap. cbn. f_equal. apply nth_error_ext. intros i. rewrite imap_nth. now destruct (nth_error vis i).
      * apply nth_error_ext. intros i. rewrite imap_nth. now destruct (nth_error (md k) i).
    + intros i s Hi ->. unfold rd at 1. rewrite (Hms i Hi). cbn [bind]. cbn zeta.
      assert (Lm : i < length (@imap f32 f32 (fun j (x : f32) => if j <? i then to32 (RMS (rms j)) else x) (md k))) by (unfold md; rewrite !imap_length; lia).
      assert (EM : upd (@imap f32 f32 (fun j (x : f32) => if j <? i then to32 (RMS (rms j)) else x) (md k)) i (to32 (RMS (rms i))) =
                   @imap f32 f32 (fun j (x : f32) => if j <? S i then to32 (RMS (rms j)) else x) (md k)).
      { apply nth_error_ext. intros j. destruct (Nat.eq_dec i j) as [<-|N].
        - rewrite upd_same by trivial. rewrite imap_nth. destruct (nth_some (md k) i) as (x & Ex); [rewrite imap_length in Lm; trivial|]. rewrite Ex. cbn.
          rewrite (proj2 (Nat.ltb_lt i (S i))) by lia. reflexivity.
        - rewrite upd_diff by trivial. rewrite !imap_nth. destruct (nth_error (md k) j); cbn [option_map]; trivial. f_equal.
          destruct (Nat.ltb_spec j i), (Nat.ltb_spec j (S i)); trivial; lia. }
      assert (ER : (if is0 (RMS (rms i)) then Ok (remap (fun r j v => if j <? i then g r j v else v) row)
          else upd_vis (remap (fun r j v => if j <? i then g r j v else v) row) i (fun v => cdiv v (RMS (rms i)))) =
          Ok (remap (fun r j v => if j <? S i then g r j v else v) row)).
      { destruct (nth_some (visibilities row) i) as (v & Ev); [lia|]. destruct (is0 (RMS (rms i))) eqn:Z.
        - f_equal. unfold remap. f_equal. apply nth_error_ext. intros j. rewrite !imap_nth. destruct (nth_error (visibilities row) j); cbn [option_map]; trivial. f_equal.
          destruct (Nat.ltb_spec j i), (Nat.ltb_spec j (S i)); trivial; try lia. replace j with i by lia. unfold g, ch_norm. now rewrite Z.
        - unfold upd_vis, remap. cbn [visibilities antenna1 antenna2]. unfold rd. rewrite imap_nth, Ev. cbn [option_map bind]. rewrite Nat.ltb_irrefl.
          rewrite wr_ok by (rewrite imap_length; lia). cbn [bind]. do 2 f_equal. apply nth_error_ext. intros j. destruct (Nat.eq_dec i j) as [<-|N].
          + rewrite upd_same by (rewrite imap_length; lia). rewrite imap_nth, Ev. cbn [option_map]. rewrite (proj2 (Nat.ltb_lt i (S i))) by lia.
            unfold g, ch_norm. now rewrite Z.
          + rewrite upd_diff by trivial. rewrite !imap_nth. destruct (nth_error (visibilities row) j); cbn [option_map]; trivial. f_equal.
            destruct (Nat.ltb_spec j i), (Nat.ltb_spec j (S i)); trivial; lia. }
      rewrite ER. cbn [bind]. rewrite wr_ok by trivial. cbn [bind]. rewrite EM. eauto.
    + match goal with |- context [foldM ?F (seq 0 n) (row, md k)] => let Q := fresh in assert (Q : foldM F (seq 0 n) (row, md k) = _) by exact E; rewrite Q; clear Q end. cbn [bind]. rewrite wr_ok.
      2: { rewrite app_length, map_length, firstn_length_le, skipn_length by lia. lia. }
      cbn [bind]. eexists. split; [reflexivity|]. f_equal.
      * rewrite (firstn_S' data k row Er), map_app, <- app_assoc. cbn [map app].
        assert (Sk : skipn k data = row :: skipn (S k) data) by now apply skipn_cons'.
        rewrite Sk. assert (Lk : length (map (remap g) (firstn k data)) = k) by (rewrite map_length, firstn_length_le; lia).
        replace (remap (fun r j v => if j <? n then g r j v else v) row) with (remap g row).
        2: { unfold remap. f_equal. apply nth_error_ext. intros j. rewrite !imap_nth. destruct (nth_error (visibilities row) j) eqn:Ej; cbn [option_map]; trivial.
             apply nth_lt in Ej. now rewrite (proj2 (Nat.ltb_lt j n)) by lia. }
        pose proof (upd_app_cons (map (remap g) (firstn k data)) (skipn (S k) data) row (remap g row)) as Q. rewrite Lk in Q. exact Q.
      * unfold md. apply nth_error_ext. intros j. rewrite !imap_nth. destruct (nth_error meta j); cbn [option_map]; trivial. f_equal.
        destruct (j <? n); cbn; trivial.
  - etransitivity; [exact E|]. do 2 f_equal. rewrite firstn_all, skipn_all. apply app_nil_r.
Qed.

(** the rms per pair of antennas *)
Definition of_pair (pol k : nat) (data : list (drow cd)) : list cd :=
  flat_map (fun r => if (Nat.min (antenna1 r) (antenna2 r) * nAnt + Nat.max (antenna1 r) (antenna2 r) =? k)
                     then of_pol nPol nChan pol (visibilities r) else []) (crosses data).

Lemma pair_lt a b : a < nAnt -> b < nAnt -> Nat.min a b * nAnt + Nat.max a b < nAnt * nAnt.
Proof. intros. nia. Qed.

Lemma antenna_meas_eq pol data : pol < nPol -> shaped data -> exists ms, antenna_meas nPol nChan pol nAnt data = Ok ms /\ length ms = nAnt * nAnt /\
  forall k, k < nAnt * nAnt -> nth_error ms k = Some (fold_left Include (of_pair pol k data) no_meas).
Proof.
  intros Hp (Hr & Ha). unfold antenna_meas.
  assert (G : forall l x0, length l = nAnt * nAnt -> (forall k, k < nAnt * nAnt -> nth_error l k = Some (x0 k)) ->
    exists ms, foldM (fun l r =>
      let a1 := antenna1 r in let a2 := antenna2 r in
      if (a1 =? a2)%nat then Ok l else
      let index := (Nat.min a1 a2 * nAnt + Nat.max a1 a2)%nat in
      foldM (fun l ch => do v <- rd (visibilities r) (ch * nPol + pol); include_at l index v) (seq 0 nChan) l) data l = Ok ms /\ length ms = nAnt * nAnt /\
    forall k, k < nAnt * nAnt -> nth_error ms k = Some (fold_left Include (of_pair pol k data) (x0 k))).
  { induction data as [|r data IH]; intros l x0 Hl H0; cbn [foldM]; [eauto|]. cbn zeta.
    specialize (IH ltac:(intros x I; apply Hr; now right) ltac:(intros x I; apply Ha; now right)).
    unfold of_pair, crosses. cbn [filter]. unfold is_cross at 1. destruct (Nat.eqb_spec (antenna1 r) (antenna2 r)) as [Q|Q]; cbn [negb bind]; [now apply IH|].
    set (index := Nat.min (antenna1 r) (antenna2 r) * nAnt + Nat.max (antenna1 r) (antenna2 r)).
    rewrite (foldM_of_pol_gen pol (visibilities r) (fun l v => include_at l index v)) by (trivial; apply Hr; now left).
    assert (Hi : index < nAnt * nAnt) by (apply pair_lt; apply (Ha r); now left).
    assert (J : forall vs l x0, length l = nAnt * nAnt -> (forall k, k < nAnt * nAnt -> nth_error l k = Some (x0 k)) ->
      exists l', foldM (fun l v => include_at l index v) vs l = Ok l' /\ length l' = nAnt * nAnt /\
        forall k, k < nAnt * nAnt -> nth_error l' k = Some (fold_left Include (if index =? k then vs else []) (x0 k))).
    { clear - Hi. induction vs as [|v vs IH]; intros l x0 Hl H0; cbn [foldM].
      - exists l. split; trivial. split; trivial. intros k Hk. rewrite H0 by trivial. now destruct (index =? k).
      - unfold include_at at 1. unfold rd. rewrite (H0 index Hi). cbn [bind]. rewrite wr_ok by lia. cbn [bind].
        destruct (IH (upd l index (Include (x0 index) v)) (fun k => if index =? k then Include (x0 k) v else x0 k)) as (l' & E & L' & H').
        + now rewrite upd_length.
        + intros k Hk. destruct (Nat.eqb_spec index k) as [<-|N]; [now rewrite upd_same by lia|now rewrite upd_diff by trivial; apply H0].
        + exists l'. split; trivial. split; trivial. intros k Hk. rewrite (H' k Hk). now destruct (index =? k). }
    destruct (J (of_pol nPol nChan pol (visibilities r)) l x0 Hl H0) as (l' & E & L' & H'). rewrite E. cbn [bind].
    destruct (IH l' _ L' H') as (ms & E2 & L2 & H2). exists ms. split; trivial. split; trivial. intros k Hk. rewrite (H2 k Hk). f_equal. cbn [flat_map].
    now rewrite fold_left_app. }
  apply (G (repeat no_meas (nAnt * nAnt)) (fun _ => no_meas)); [apply repeat_length|]. intros i Hi. now rewrite nth_error_repeat.
Qed.

Lemma next_rms_ok meas rms i : length meas = nAnt * nAnt -> length rms = nAnt -> i < nAnt -> exists x, next_rms nAnt meas rms i = Ok x.
Proof.
  intros Hm Hr Hi. unfold next_rms.
  destruct (foldM_seq (fun '(next, weightSum) j =>
    do w <- rd rms j;
    if negb (i =? j)%nat && negb (is0 w) then
      do x <- matrix nAnt meas i j;
      Ok (if is_finite x then (add64 next x, add64 weightSum w) else (next, weightSum))
    else Ok (next, weightSum)) (fun _ _ => True) nAnt (zero64, zero64)) as ([a b] & E & _); trivial.
  - intros j [s t] Hj _. destruct (rd_ok rms j) as (w & E & _); [lia|]. rewrite E. cbn [bind]. destruct (negb (i =? j) && negb (is0 w)); [|eauto].
    unfold matrix. destruct (rd_ok meas (Nat.min i j * nAnt + Nat.max i j)) as (m & Em & _); [rewrite Hm; now apply pair_lt|]. rewrite Em. cbn [bind]. eauto.
  - rewrite E. cbn [bind]. eauto.
Qed.

Lemma mapM_ok {A B} (f : A -> res B) l : (forall a, In a l -> exists b, f a = Ok b) -> exists l', mapM f l = Ok l' /\ length l' = length l.
Proof.
  induction l as [|a l IH]; intros H; cbn; [eauto|]. destruct (H a) as (b & E); [now left|]. rewrite E. cbn.
  destruct IH as (l' & E' & L); [intros; apply H; now right|]. rewrite E'. cbn. eexists. split; [reflexivity|]. cbn. now rewrite L.
Qed.

Lemma rms_iteration_ok meas rms : length meas = nAnt * nAnt -> length rms = nAnt -> exists r p, rms_iteration nAnt meas rms = Ok (r, p) /\ length r = nAnt.
Proof.
  intros Hm Hr. unfold rms_iteration. destruct (mapM_ok (next_rms nAnt meas rms) (seq 0 nAnt)) as (l & E & Ll).
  - intros i I. apply in_seq in I. apply next_rms_ok; trivial; lia.
  - rewrite E. cbn [bind]. eexists. eexists. split; [reflexivity|]. rewrite !map_length, combine_length, Ll, seq_length. lia.
Qed.

Lemma rms_loop_ok meas : length meas = nAnt * nAnt -> forall todo rms p, length rms = nAnt -> exists r, rms_loop todo nAnt meas rms p = Ok r /\ length r = nAnt.
Proof.
  intros Hm. induction todo as [|todo IH]; intros rms p Hr; cbn [rms_loop]; [eauto|]. destruct (Bltb lit_1e_6 p); [|eauto].
  destruct (rms_iteration_ok meas rms Hm Hr) as (r & q & E & L). rewrite E. cbn [bind]. now apply IH.
Qed.

Lemma antennae_ok pol data : pol < nPol -> shaped data -> exists r, calculateAntennaeRMS nPol nChan pol nAnt data = Ok r /\ length r = nAnt.
Proof.
  intros Hp Hs. unfold calculateAntennaeRMS. destruct (antenna_meas_eq pol data Hp Hs) as (ms & E & L & _). rewrite E. cbn [bind].
  apply rms_loop_ok; trivial. apply repeat_length.
Qed.

(** only the samples of the polarization matter *)
Lemma of_pol_remap g pol r : (forall i v, i mod nPol = pol -> g r i v = v) -> pol < nPol -> of_pol nPol nChan pol (visibilities (remap g r)) = of_pol nPol nChan pol (visibilities r).
Proof.
  intros H Hp. unfold of_pol, remap. cbn [visibilities]. induction (seq 0 nChan) as [|ch l IH]; cbn [flat_map]; trivial. rewrite IH, imap_nth. f_equal.
  destruct (nth_error (visibilities r) (ch * nPol + pol)); cbn; trivial. now rewrite H by now apply stride_mod.
Qed.

Lemma antenna_meas_local g pol data : pol < nPol -> shaped data -> (forall r i v, i mod nPol = pol -> g r i v = v) ->
  antenna_meas nPol nChan pol nAnt (map (remap g) data) = antenna_meas nPol nChan pol nAnt data.
Proof.
  intros Hp Hs H. destruct (antenna_meas_eq pol data Hp Hs) as (ms & E & L & M).
  destruct (antenna_meas_eq pol (map (remap g) data) Hp (remap_shaped g _ Hs)) as (ms' & E' & L' & M'). rewrite E, E'. f_equal.
  apply nth_error_ext. intros k. destruct (Nat.ltb_spec k (nAnt * nAnt)) as [Hk|Hk].
  - rewrite M, M' by trivial. do 2 f_equal. unfold of_pair, crosses. clear - Hp H. induction data as [|r data IH]; cbn [map filter flat_map]; trivial.
    change (is_cross (remap g r)) with (is_cross r). destruct (is_cross r); trivial. cbn [flat_map]. rewrite IH. f_equal.
    rewrite of_pol_remap; trivial. intros; now apply H.
  - rewrite (proj2 (nth_error_None ms k)), (proj2 (nth_error_None ms' k)) by lia. reflexivity.
Qed.

(** the factor that a sample gets *)
Definition ant_norm (rms : list f64) (r : drow cd) : f64 :=
  let mul := mul64 (nth (antenna1 r) rms zero64) (nth (antenna2 r) rms zero64) in if is0 mul then zero64 else div64 one64 mul.

Lemma af_antennas_eq pol data meta rms : pol < nPol -> shaped data -> nPol * (nChan + nAnt) <= length meta ->
  calculateAntennaeRMS nPol nChan pol nAnt data = Ok rms -> length rms = nAnt ->
  exists meta', af_antennas nPol nChan nAnt (data, meta) pol = Ok (map (remap (fun r i v => if i mod nPol =? pol then cmul v (ant_norm rms r) else v)) data, meta') /\
    length meta' = length meta /\ (forall a, a < nAnt -> nth_error meta' (n + nAnt * pol + a) = Some (to32 (nth a rms zero64))) /\
    (forall j, j < n + nAnt * pol \/ n + nAnt * pol + nAnt <= j -> nth_error meta' j = nth_error meta j).
Proof.
  intros Hp Hs Hm E Lr. unfold af_antennas. rewrite E. cbn [bind].
  rewrite (mapM_map _ (remap (fun r i v => if i mod nPol =? pol then cmul v (ant_norm rms r) else v))).
  2: { intros r I. destruct (proj2 Hs r I) as (A1 & A2).
       assert (N : forall a, a < nAnt -> rd rms a = Ok (nth a rms zero64)). { intros a Ha. unfold rd. now rewrite (nth_error_nth' rms zero64) by lia. }
       rewrite !N by trivial. cbn [bind]. cbn zeta. rewrite upd_pol by (trivial; now apply Hs). reflexivity. }
  cbn [bind].
  destruct (foldM_seq (fun meta a => do x <- rd rms a; wr meta (nPol * nChan + nAnt * pol + a) (to32 x))
    (fun k m => length m = length meta /\ (forall a, a < k -> nth_error m (n + nAnt * pol + a) = Some (to32 (nth a rms zero64))) /\
       forall j, j < n + nAnt * pol \/ n + nAnt * pol + k <= j -> nth_error m j = nth_error meta j) nAnt meta) as (m & Em & Lm & H1 & H2).
  - split; trivial. split; [intros; lia|]. trivial.
  - intros a s Ha (Ls & H1 & H2). unfold rd. rewrite (nth_error_nth' rms zero64) by lia. cbn [bind].
    assert (n + nAnt * pol + a < length s) by nia. rewrite wr_ok by trivial. eexists. split; [reflexivity|]. split; [now rewrite upd_length|]. split.
    + intros b Hb. destruct (Nat.eq_dec a b) as [<-|N]; [now rewrite upd_same by trivial|]. rewrite upd_diff by lia. apply H1. lia.
    + intros j Hj. rewrite upd_diff by lia. apply H2. lia.
  - exists m. match goal with |- context [foldM ?F (seq 0 nAnt) meta] => let Q := fresh in assert (Q : foldM F (seq 0 nAnt) meta = _) by exact Em; rewrite Q; clear Q end.
    cbn [bind]. auto.
Qed.

Definition data1 (data : list (drow cd)) : list (drow cd) := map (remap (fun _ i v => ch_norm (chan_rms i data) v)) data.
Definition data2 (A : nat -> list f64) (data : list (drow cd)) : list (drow cd) :=
  map (remap (fun r i v => cmul v (ant_norm (A (i mod nPol)) r))) data.

Lemma af_rms_eq data meta : shaped data -> nPol * (nChan + nAnt) <= length meta ->
  exists A meta', (forall p, p < nPol -> calculateAntennaeRMS nPol nChan p nAnt (data1 data) = Ok (A p) /\ length (A p) = nAnt) /\
    af_rms nPol nChan nAnt data meta = Ok (data2 A (data1 data), meta') /\ length meta' = length meta /\
    (forall i, i < n -> data <> [] -> nth_error meta' i = Some (to32 (chan_rms i data))) /\
    (forall i, i < n -> data = [] -> nth_error meta' i = nth_error meta i) /\
    (forall p a, p < nPol -> a < nAnt -> nth_error meta' (n + nAnt * p + a) = Some (to32 (nth a (A p) zero64))) /\
    (forall j, nPol * (nChan + nAnt) <= j -> nth_error meta' j = nth_error meta j).
Proof.
  intros Hs Hm. unfold af_rms. destruct (channel_meas_eq data (proj1 Hs)) as (ms & Ems & Lms & Hms). rewrite Ems. cbn [bind].
  rewrite (af_channels_eq ms (fun i => fold_left Include (of_chan i data) no_meas)) by (try apply Hs; trivial; nia). cbn [bind].
  fold (data1 data). set (meta1 := @imap f32 f32 _ meta).
  assert (Hs1 : shaped (data1 data)) by now apply remap_shaped.
  assert (Hm1 : nPol * (nChan + nAnt) <= length meta1) by (unfold meta1; now rewrite imap_length).
  pose (A := fun p => match calculateAntennaeRMS nPol nChan p nAnt (data1 data) with Ok l => l | _ => [] end).
  assert (HA : forall p, p < nPol -> calculateAntennaeRMS nPol nChan p nAnt (data1 data) = Ok (A p) /\ length (A p) = nAnt).
  { intros p Hp. unfold A. destruct (antennae_ok p (data1 data) Hp Hs1) as (l & E & Ll). now rewrite E. }
  pose (d := fun k => map (remap (fun r i v => if i mod nPol <? k then cmul v (ant_norm (A (i mod nPol)) r) else v)) (data1 data)).
  destruct (foldM_seq (af_antennas nPol nChan nAnt) (fun k s => fst s = d k /\ length (snd s) = length meta1 /\
    (forall j, j < n \/ nPol * (nChan + nAnt) <= j -> nth_error (snd s) j = nth_error meta1 j) /\
    (forall p a, p < k -> a < nAnt -> nth_error (snd s) (n + nAnt * p + a) = Some (to32 (nth a (A p) zero64)))) nPol (data1 data, meta1))
    as ([d' m'] & E & Ed & Lm & H1 & H2).
  - cbn. split; [unfold d; symmetry; apply remap_id|]. split; trivial. split; trivial. intros; lia.
  - intros p [dd m] Hp (Ed & Lm & H1 & H2). cbn [fst snd] in *. subst dd. assert (Hd : shaped (d p)) by now apply remap_shaped.
    destruct (HA p Hp) as (EA & LA).
    destruct (af_antennas_eq p (d p) m (A p) Hp Hd ltac:(lia)) as (m' & E & L' & M1 & M2); trivial.
    { unfold calculateAntennaeRMS, d. rewrite antenna_meas_local; trivial. intros r i v <-. now rewrite Nat.ltb_irrefl. }
    rewrite E. eexists. split; [reflexivity|]. cbn [fst snd]. split; [|split; [congruence|split]].
    + unfold d. rewrite remap_remap. apply remap_ext. intros r i v _ _.
      destruct (Nat.eqb_spec (i mod nPol) p) as [Q|Q].
      * rewrite Q, Nat.ltb_irrefl, (proj2 (Nat.ltb_lt p (S p))) by lia. reflexivity.
      * destruct (Nat.ltb_spec (i mod nPol) p), (Nat.ltb_spec (i mod nPol) (S p)); trivial; lia.
    + intros j Hj. rewrite M2; [now apply H1|]. destruct Hj as [Hj|Hj]; [left; lia|right; nia].
    + intros q a Hq Ha. destruct (Nat.eq_dec q p) as [->|N]; [now apply M1|]. rewrite M2; [apply H2; trivial; lia|]. assert (q < p) by lia. left. nia.
  - cbn [fst snd] in *. exists A, m'. split; trivial. split; [etransitivity; [exact E|]|split; [unfold meta1 in Lm; now rewrite imap_length in Lm|split; [|split; [|split]]]].
    + do 2 f_equal. rewrite Ed. apply remap_ext. intros r i v I Ei. apply nth_lt in Ei. rewrite (proj1 Hs1 r I) in Ei.
      rewrite (proj2 (Nat.ltb_lt (i mod nPol) nPol)); trivial. now apply stride_of in Ei.
    + intros i Hi Nd. rewrite H1 by now left. unfold meta1. rewrite imap_nth. destruct (nth_some meta i) as (x & Ex); [nia|]. rewrite Ex. cbn [option_map].
      rewrite (proj2 (Nat.ltb_lt i n) Hi). destruct data; [easy|]. reflexivity.
    + intros i Hi Nd. rewrite H1 by now left. unfold meta1. rewrite imap_nth. rewrite Nd. cbn [length]. rewrite Nat.ltb_irrefl, Bool.andb_false_r. now destruct (nth_error meta i).
    + trivial.
    + intros j Hj. rewrite H1 by now right. unfold meta1. rewrite imap_nth. rewrite (proj2 (Nat.ltb_ge j n)) by nia. now destruct (nth_error meta j).
Qed.
End Form.
