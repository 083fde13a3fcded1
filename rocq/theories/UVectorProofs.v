(** Lemmas about UVector. *)
From Verif Require Import Base UVector UVectorSpec.

Section P.
Context {A : Type}.
Implicit Types (v : uvector A) (l : list (option A)) (xs : list A).

Lemma rds_app {B} (a b c : list B) : rds (a ++ b ++ c) (length a) (length b) = Ok b.
Proof.
  unfold rds. replace (_ <=? _)%nat with true by (symmetry; apply Nat.leb_le; rewrite !app_length; lia).
  rewrite skipn_app, skipn_all, Nat.sub_diag. cbn [skipn app]. rewrite firstn_app, firstn_all, Nat.sub_diag. cbn.
  now rewrite app_nil_r.
Qed.

Lemma wrs_app {B} (a b b' c : list B) : length b = length b' -> wrs (a ++ b ++ c) (length a) b' = Ok (a ++ b' ++ c).
Proof.
  intros E. unfold wrs. rewrite <- E.
  replace (_ <=? _)%nat with true by (symmetry; apply Nat.leb_le; rewrite !app_length; lia).
  rewrite firstn_app, firstn_all, Nat.sub_diag. cbn [firstn]. rewrite app_nil_r.
  do 3 f_equal. rewrite app_assoc, skipn_app. rewrite skipn_all2 by (rewrite app_length; lia).
  rewrite app_length, Nat.sub_diag. reflexivity.
Qed.

Lemma rds_front {B} (b c : list B) n : n = length b -> rds (b ++ c) 0 n = Ok b.
Proof. intros ->. exact (rds_app [] b c). Qed.

Lemma wrs_front {B} (b b' c : list B) : length b = length b' -> wrs (b ++ c) 0 b' = Ok (b' ++ c).
Proof. exact (wrs_app [] b b' c). Qed.

Lemma wrs_at {B} (a b b' c : list B) n : n = length a -> length b = length b' -> wrs (a ++ b ++ c) n b' = Ok (a ++ b' ++ c).
Proof. intros ->. apply wrs_app. Qed.

Lemma rds_at {B} (a b c : list B) n m : n = length a -> m = length b -> rds (a ++ b ++ c) n m = Ok b.
Proof. intros -> ->. apply rds_app. Qed.

Lemma allocate_split n m : (m <= n)%nat -> @allocate A n = allocate m ++ allocate (n - m).
Proof. intros H. unfold allocate. rewrite <- repeat_app. f_equal. lia. Qed.

Lemma allocate_length n : length (@allocate A n) = n.
Proof. apply repeat_length. Qed.

Lemma holds_cells v l : holds v l -> cells v = Ok l.
Proof. intros (H & r & E). unfold cells. rewrite E. now apply rds_front. Qed.

Lemma holds_capacity v l : holds v l -> (length l <= capacity v)%nat.
Proof. intros (H & r & E). unfold capacity. rewrite E, app_length. lia. Qed.

(** a list cut in pieces of given lengths *)
Lemma split_at {B} (l : list B) n : (n <= length l)%nat -> exists a b, l = a ++ b /\ length a = n /\ length b = (length l - n)%nat.
Proof.
  intros H. exists (firstn n l), (skipn n l). rewrite firstn_skipn, firstn_length_le, skipn_length by trivial. auto.
Qed.

Lemma realloc_ok v l n : holds v l -> (length l <= n)%nat -> realloc v n = Ok (UV (l ++ allocate (n - length l)) (length l)).
Proof.
  intros H L. unfold realloc. rewrite (holds_cells _ _ H). cbn [bind].
  rewrite (allocate_split n (length l)) by trivial. rewrite wrs_front by apply allocate_length.
  cbn [bind]. destruct H as (-> & _). reflexivity.
Qed.

Lemma holds_UV l rest : holds (UV (l ++ rest) (length l)) l.
Proof. split; trivial. now exists rest. Qed.

Lemma make_holds n : holds (A:=A) (uv_make n) (repeat None n).
Proof. split; cbn; [now rewrite repeat_length|]. exists []. now rewrite app_nil_r. Qed.

Lemma empty_holds : holds (A:=A) uv_empty [].
Proof. split; trivial. now exists []. Qed.

Lemma make_fill_ok n (x : A) : exists v, uv_make_fill n x = Ok v /\ holds v (repeat (Some x) n) /\ capacity v = n.
Proof.
  unfold uv_make_fill. rewrite <- (app_nil_r (allocate n)), wrs_front by now rewrite allocate_length, repeat_length.
  rewrite app_nil_r. cbn [bind]. eexists. split; [reflexivity|]. split.
  - split; cbn; [now rewrite repeat_length|]. exists []. now rewrite app_nil_r.
  - unfold capacity. cbn. apply repeat_length.
Qed.

Lemma make_range_ok xs : exists v, uv_make_range xs = Ok v /\ holds v (map Some xs) /\ capacity v = length xs.
Proof.
  unfold uv_make_range. rewrite <- (app_nil_r (allocate _)), wrs_front by now rewrite allocate_length, map_length.
  rewrite app_nil_r. cbn [bind]. eexists. split; [reflexivity|]. split.
  - split; cbn; [now rewrite map_length|]. exists []. now rewrite app_nil_r.
  - unfold capacity. cbn. apply map_length.
Qed.

Lemma copy_ok v l : holds v l -> exists v', uv_copy v = Ok v' /\ holds v' l /\ capacity v' = length l.
Proof.
  intros H. unfold uv_copy. rewrite (holds_cells _ _ H). cbn [bind]. destruct H as (C & r & E).
  unfold size. rewrite C. rewrite <- (app_nil_r (allocate _)), wrs_front by now rewrite allocate_length.
  rewrite app_nil_r. cbn [bind]. eexists. split; [reflexivity|]. split; [|reflexivity].
  split; trivial. exists []. now rewrite app_nil_r.
Qed.

(** copy assignment: right when the destination has to grow; otherwise the
    size of the destination is kept *)
Lemma assign_ok dst src l l' : holds dst l' -> holds src l ->
  (capacity dst < length l)%nat \/ length l' = length l ->
  exists v, uv_assign dst src = Ok v /\ holds v l.
Proof.
  intros Hd Hs D. unfold uv_assign. destruct (Hs) as (Cs & rs & Es). unfold size. rewrite Cs.
  destruct (Nat.ltb_spec (capacity dst) (length l)) as [Q|Q].
  - rewrite Es, rds_front by trivial. cbn [bind store count].
    rewrite <- (app_nil_r (allocate _)), wrs_front by apply allocate_length. rewrite app_nil_r. cbn [bind].
    eexists. split; [reflexivity|]. split; trivial. exists []. now rewrite app_nil_r.
  - destruct D as [D|D]; [lia|]. rewrite Es, rds_front by trivial. cbn [bind].
    destruct Hd as (Cd & rd' & Ed). rewrite Ed, wrs_front by trivial. cbn [bind].
    eexists. split; [reflexivity|]. rewrite Cd. split; [exact D|]. now exists rd'.
Qed.

(** what copy assignment does when the destination is large enough *)
Lemma assign_keeps_size dst src l l' : holds dst l' -> holds src l -> (length l <= capacity dst)%nat ->
  exists v, uv_assign dst src = Ok v /\ size v = length l'.
Proof.
  intros Hd Hs Q. unfold uv_assign. destruct (Hs) as (Cs & rs & Es). unfold size. rewrite Cs.
  apply Nat.ltb_ge in Q as Q'. rewrite Q'. rewrite Es, rds_front by trivial. cbn [bind].
  unfold wrs. unfold capacity in Q. cbn [Nat.add]. apply Nat.leb_le in Q. rewrite Q. cbn [bind].
  eexists. split; [reflexivity|]. apply Hd.
Qed.

Lemma store_room v l n : holds v l -> (length l + n <= capacity v)%nat ->
  exists mid rest, store v = l ++ mid ++ rest /\ length mid = n.
Proof.
  intros (C & r & E) H. unfold capacity in H. rewrite E, app_length in H.
  destruct (split_at r n) as (a & b & -> & La & Lb); [lia|]. exists a, b. auto.
Qed.

Lemma resize_ok v l n : holds v l -> exists v' added, uv_resize v n = Ok v' /\
  holds v' (firstn n l ++ added) /\ length added = (n - length l)%nat.
Proof.
  intros H. unfold uv_resize. pose proof (holds_capacity _ _ H) as HC.
  destruct (Nat.ltb_spec (capacity v) n) as [Q|Q].
  - assert (S : (enlarge_size v n >= n + length l)%nat) by (unfold enlarge_size, size; destruct H as (-> & _); lia).
    rewrite (realloc_ok v l) by (trivial; lia). cbn [bind store].
    exists (UV (l ++ allocate (enlarge_size v n - length l)) n), (allocate (n - length l)).
    split; [reflexivity|]. rewrite firstn_all2 by lia. split; [|apply allocate_length].
    split; cbn; [rewrite app_length, allocate_length; lia|].
    exists (allocate (enlarge_size v n - n)). rewrite <- app_assoc. f_equal.
    rewrite (allocate_split (enlarge_size v n - length l) (n - length l)) by lia. do 2 f_equal. lia.
  - cbn [bind]. destruct (le_lt_dec n (length l)) as [L|L].
    + exists (UV (store v) n), []. split; [reflexivity|]. rewrite app_nil_r. split; [|cbn; lia].
      destruct H as (C & r & E). split; cbn; [rewrite firstn_length_le; lia|].
      exists (skipn n l ++ r). rewrite E, app_assoc, firstn_skipn. reflexivity.
    + destruct (store_room v l (n - length l) H) as (mid & rest & E & Lm); [lia|].
      exists (UV (store v) n), mid. split; [reflexivity|]. rewrite firstn_all2 by lia. split; trivial.
      split; cbn; [rewrite app_length; lia|]. exists rest. now rewrite <- app_assoc.
Qed.

Lemma resize_fill_ok v l n x : holds v l -> exists v', uv_resize_fill v n x = Ok v' /\
  holds v' (firstn n l ++ repeat (Some x) (n - length l)).
Proof.
  intros H. unfold uv_resize_fill. pose proof (holds_capacity _ _ H) as HC.
  assert (S : size v = length l) by apply H. rewrite S.
  destruct (Nat.ltb_spec (capacity v) n) as [Q|Q].
  - rewrite (realloc_ok v l) by (trivial; lia). cbn [bind store].
    replace (length l <? n)%nat with true by (symmetry; apply Nat.ltb_lt; lia).
    rewrite <- (app_nil_r (allocate _)), wrs_at by (trivial; now rewrite allocate_length, repeat_length).
    cbn [bind]. eexists. split; [reflexivity|]. rewrite firstn_all2 by lia. rewrite app_nil_r.
    split; cbn; [rewrite app_length, repeat_length; lia|]. exists []. now rewrite app_nil_r.
  - cbn [bind]. destruct (Nat.ltb_spec (length l) n) as [L|L].
    + destruct (store_room v l (n - length l) H) as (mid & rest & E & Lm); [lia|].
      rewrite E, wrs_at by (trivial; now rewrite repeat_length). cbn [bind]. eexists. split; [reflexivity|].
      rewrite firstn_all2 by lia. split; cbn; [rewrite app_length, repeat_length; lia|].
      exists rest. now rewrite <- app_assoc.
    + eexists. split; [reflexivity|]. replace (n - length l)%nat with 0%nat by lia. cbn [repeat]. rewrite app_nil_r.
      destruct H as (C & r & E). split; cbn; [rewrite firstn_length_le; lia|].
      exists (skipn n l ++ r). rewrite E, app_assoc, firstn_skipn. reflexivity.
Qed.

Lemma reserve_ok v l n : holds v l -> exists v', uv_reserve v n = Ok v' /\ holds v' l /\ (n <= capacity v')%nat.
Proof.
  intros H. unfold uv_reserve. pose proof (holds_capacity _ _ H) as HC.
  destruct (Nat.ltb_spec (capacity v) n) as [Q|Q].
  - rewrite (realloc_ok v l) by (trivial; lia). eexists. split; [reflexivity|]. split; [apply holds_UV|].
    unfold capacity. cbn. rewrite app_length, allocate_length. lia.
  - exists v. auto.
Qed.

Lemma shrink_ok v l : holds v l -> exists v', uv_shrink v = Ok v' /\ holds v' l /\ capacity v' = length l.
Proof.
  intros H. unfold uv_shrink. pose proof (holds_capacity _ _ H) as HC.
  assert (S : size v = length l) by apply H. rewrite S.
  destruct (Nat.eqb_spec (length l) 0) as [Z|Z].
  - apply length_zero_iff_nil in Z. subst l. exists uv_empty. split; trivial. split; [apply empty_holds|reflexivity].
  - destruct (Nat.ltb_spec (length l) (capacity v)) as [Q|Q].
    + rewrite (realloc_ok v l) by (trivial; lia). eexists. split; [reflexivity|]. split; [apply holds_UV|].
      unfold capacity. cbn. rewrite app_length, allocate_length. lia.
    + exists v. split; trivial. split; trivial. lia.
Qed.

Lemma get_ok v l i : holds v l -> (i < length l)%nat -> uv_get v i = rd l i.
Proof. intros (C & r & E) H. unfold uv_get, rd. now rewrite E, nth_error_app1. Qed.

Lemma at_ok v l i : holds v l -> uv_at v i = match nth_error l i with Some x => Ok x | None => Throw end.
Proof.
  intros H. unfold uv_at. assert (S : size v = length l) by apply H. rewrite S.
  destruct (Nat.leb_spec (length l) i) as [Q|Q].
  - apply nth_error_None in Q. now rewrite Q.
  - rewrite (get_ok v l) by trivial. unfold rd. destruct (nth_error l i) eqn:E; trivial.
    apply nth_error_None in E. lia.
Qed.

Lemma set_ok v l i x : holds v l -> (i < length l)%nat -> exists v', uv_set v i x = Ok v' /\ holds v' (upd l i (Some x)).
Proof.
  intros (C & r & E) H. unfold uv_set, wr. replace (i <? length (store v))%nat with true
    by (symmetry; apply Nat.ltb_lt; rewrite E, app_length; lia). cbn [bind].
  eexists. split; [reflexivity|]. assert (U : forall (l r : list (option A)) i y, (i < length l)%nat -> upd (l ++ r) i y = upd l i y ++ r).
  { clear. induction l as [|a l IH]; intros r i y H; cbn in *; [lia|]. destruct i; cbn; trivial. f_equal. apply IH. lia. }
  assert (UL : forall (l : list (option A)) i y, length (upd l i y) = length l).
  { clear. induction l as [|a l IH]; intros i y; trivial. destruct i; cbn; trivial. now rewrite IH. }
  split; cbn; [now rewrite UL|]. exists r. rewrite E. now apply U.
Qed.

Lemma wr_wrs {B} (l : list B) i (x : B) : wr l i x = wrs l i [x].
Proof.
  unfold wr, wrs. cbn [length].
  destruct (Nat.ltb_spec i (length l)) as [Q|Q].
  - replace (_ <=? _)%nat with true by (symmetry; apply Nat.leb_le; lia). f_equal.
    replace (i + 1)%nat with (S i) by lia. revert i Q. induction l as [|a l IH]; intros i Q; cbn in Q; [lia|].
    destruct i; cbn; trivial. f_equal. apply IH. lia.
  - replace (_ <=? _)%nat with false by (symmetry; apply Nat.leb_gt; lia). trivial.
Qed.

Lemma push_back_ok v l a x : holds v l -> arg_value v a = Ok x ->
  (forall i, a = Own i -> (length l < capacity v)%nat) ->
  exists v', uv_push_back v a = Ok v' /\ holds v' (l ++ [x]).
Proof.
  intros H Ha Hown. unfold uv_push_back. pose proof (holds_capacity _ _ H) as HC.
  assert (S : count v = length l) by apply H. rewrite S. rewrite wr_wrs || idtac.
  destruct (Nat.eqb_spec (length l) (capacity v)) as [Q|Q].
  - assert (E1 : (enlarge_size v 1 >= length l + 1)%nat) by (unfold enlarge_size, size; rewrite S; lia).
    rewrite (realloc_ok v l) by (trivial; lia). cbn [bind store count].
    assert (Ea : arg_after v true a = Ok x).
    { destruct a as [y|i]; cbn in *; trivial. specialize (Hown i eq_refl). lia. }
    rewrite Ea. cbn [bind]. rewrite wr_wrs.
    rewrite (allocate_split (enlarge_size v 1 - length l) 1) by lia.
    rewrite wrs_at by (trivial; now rewrite allocate_length). cbn [bind].
    eexists. split; [reflexivity|]. split; cbn; [rewrite app_length; cbn; lia|].
    eexists. now rewrite <- app_assoc.
  - cbn [bind]. assert (Ea : arg_after v false a = Ok x) by (destruct a; trivial). rewrite Ea. cbn [bind].
    rewrite wr_wrs. destruct (store_room v l 1 H) as (mid & rest & E & Lm); [lia|].
    rewrite E, S, wrs_at by trivial. cbn [bind]. eexists. split; [reflexivity|].
    split; cbn; [rewrite app_length; cbn; lia|]. exists rest. now rewrite <- app_assoc.
Qed.

(** pushing a reference to an own element onto a full vector *)
Lemma push_back_own_full v l i : holds v l -> length l = capacity v -> uv_push_back v (Own i) = UB.
Proof.
  intros H Q. unfold uv_push_back. assert (S : count v = length l) by apply H. rewrite S, Q, Nat.eqb_refl.
  rewrite (realloc_ok v l) by (trivial; unfold enlarge_size, size; lia). reflexivity.
Qed.

Lemma pop_back_ok v l x : holds v (l ++ [x]) -> exists v', uv_pop_back v = Ok v' /\ holds v' l.
Proof.
  intros (C & r & E). unfold uv_pop_back. rewrite app_length in C. cbn in C. rewrite C, Nat.add_1_r.
  eexists. split; [reflexivity|]. split; trivial. cbn. exists ([x] ++ r). now rewrite E, <- app_assoc.
Qed.

Lemma push_range_ok v l xs : holds v l -> exists v', uv_push_range v xs = Ok v' /\ holds v' (l ++ map Some xs).
Proof.
  intros H. unfold uv_push_range. pose proof (holds_capacity _ _ H) as HC.
  assert (S : count v = length l) by apply H. unfold size. rewrite S.
  destruct (Nat.ltb_spec (capacity v - length l) (length xs)) as [Q|Q].
  - assert (E1 : (enlarge_size v (length xs) >= length l + length xs)%nat) by (unfold enlarge_size, size; rewrite S; lia).
    rewrite (realloc_ok v l) by (trivial; lia). cbn [bind store count].
    rewrite (allocate_split (enlarge_size v (length xs) - length l) (length xs)) by lia.
    rewrite wrs_at by (trivial; now rewrite allocate_length, map_length). cbn [bind].
    eexists. split; [reflexivity|]. split; cbn; [rewrite app_length, map_length; cbn; lia|].
    eexists. now rewrite <- app_assoc.
  - cbn [bind]. destruct (store_room v l (length xs) H) as (mid & rest & E & Lm); [lia|].
    rewrite E, S, wrs_at by (trivial; now rewrite map_length). cbn [bind]. eexists. split; [reflexivity|].
    split; cbn; [rewrite app_length, map_length; lia|]. exists rest. now rewrite <- app_assoc.
Qed.

Lemma enlarge_for_insert_ok v a b n m : holds v (a ++ b) -> (length a + length b + n <= m)%nat ->
  exists mid rest, enlarge_for_insert v m (length a) n = Ok (UV (a ++ mid ++ b ++ rest) (length a + n + length b)) /\ length mid = n.
Proof.
  intros (C & r & E) H. unfold enlarge_for_insert. rewrite E, app_length in *. rewrite C.
  rewrite <- app_assoc, rds_front by trivial. cbn [bind].
  rewrite rds_at by lia. cbn [bind].
  rewrite (allocate_split m (length a)) by lia. rewrite wrs_front by apply allocate_length. cbn [bind].
  rewrite (allocate_split (m - length a) n) by lia. rewrite (allocate_split (m - length a - n) (length b)) by lia.
  rewrite (app_assoc a (allocate n)). rewrite wrs_at by (rewrite ?app_length, ?allocate_length; trivial). cbn [bind].
  eexists (allocate n), _. split; [|apply allocate_length]. rewrite <- app_assoc. f_equal. f_equal. lia.
Qed.

Lemma app_cut {B} (a b : list B) r n : (n <= length r)%nat -> exists mid c rest,
  a ++ b ++ r = a ++ mid ++ c ++ rest /\ length mid = n /\ length c = length b.
Proof.
  intros H. destruct (split_at (b ++ r) n) as (mid & t & E & L1 & L2); [rewrite app_length; lia|].
  destruct (split_at t (length b)) as (c & rest & E2 & L3 & L4); [rewrite app_length in L2; lia|].
  exists mid, c, rest. rewrite E, E2. auto.
Qed.

Lemma shift_right_ok v a b n : holds v (a ++ b) -> (length a + length b + n <= capacity v)%nat ->
  exists mid rest, shift_right v (length a) n = Ok (UV (a ++ mid ++ b ++ rest) (length a + n + length b)) /\ length mid = n.
Proof.
  intros (C & r & E) H. unfold shift_right, capacity in *. rewrite E, !app_length in *. rewrite C.
  rewrite <- app_assoc. rewrite rds_at by lia. cbn [bind].
  destruct (app_cut a b r n) as (mid & c & rest & Ec & L1 & L2); [lia|].
  rewrite Ec. rewrite (app_assoc a mid). rewrite wrs_at by (rewrite ?app_length; lia). cbn [bind].
  exists mid, rest. split; trivial. rewrite <- app_assoc. f_equal. f_equal. lia.
Qed.

Lemma insert_ok v a b xs : holds v (a ++ b) -> exists v', uv_insert v (length a) xs = Ok v' /\ holds v' (a ++ map Some xs ++ b).
Proof.
  intros H. unfold uv_insert. pose proof (holds_capacity _ _ H) as HC.
  assert (S : count v = (length a + length b)%nat) by (destruct H as (-> & _); apply app_length).
  unfold size. rewrite S. replace (_ <? length a)%nat with false by (symmetry; apply Nat.ltb_ge; lia).
  assert (G : exists mid rest, (if (capacity v <? length a + length b + length xs)%nat
     then enlarge_for_insert v (enlarge_size v (length xs)) (length a) (length xs)
     else shift_right v (length a) (length xs)) = Ok (UV (a ++ mid ++ b ++ rest) (length a + length xs + length b)) /\ length mid = length xs).
  { destruct (Nat.ltb_spec (capacity v) (length a + length b + length xs)) as [Q|Q].
    - apply enlarge_for_insert_ok; trivial. unfold enlarge_size, size. lia.
    - apply shift_right_ok; trivial. }
  destruct G as (mid & rest & -> & L). cbn [bind store count].
  rewrite wrs_at by (trivial; now rewrite map_length). cbn [bind]. eexists. split; [reflexivity|].
  split; cbn; [rewrite !app_length, map_length; lia|]. exists rest. now rewrite <- !app_assoc.
Qed.

Lemma insert_uninit_ok v a b n : holds v (a ++ b) ->
  exists v' mid, uv_insert_uninit v (length a) n = Ok v' /\ holds v' (a ++ mid ++ b) /\ length mid = n.
Proof.
  intros H. unfold uv_insert_uninit. pose proof (holds_capacity _ _ H) as HC.
  assert (S : count v = (length a + length b)%nat) by (destruct H as (-> & _); apply app_length).
  unfold size. rewrite S. replace (_ <? length a)%nat with false by (symmetry; apply Nat.ltb_ge; lia).
  assert (G : exists mid rest, (if (capacity v <? length a + length b + n)%nat
     then enlarge_for_insert v (enlarge_size v n) (length a) n
     else shift_right v (length a) n) = Ok (UV (a ++ mid ++ b ++ rest) (length a + n + length b)) /\ length mid = n).
  { destruct (Nat.ltb_spec (capacity v) (length a + length b + n)) as [Q|Q].
    - apply enlarge_for_insert_ok; trivial. unfold enlarge_size, size. lia.
    - apply shift_right_ok; trivial. }
  destruct G as (mid & rest & -> & L). eexists _, mid. split; [reflexivity|]. split; trivial.
  split; cbn; [rewrite !app_length; lia|]. exists rest. now rewrite <- !app_assoc.
Qed.

Lemma erase_ok v a b c : holds v (a ++ b ++ c) -> exists v', uv_erase v (length a) (length a + length b) = Ok v' /\ holds v' (a ++ c).
Proof.
  intros (C & r & E). unfold uv_erase. rewrite C, !app_length.
  replace (_ || _)%bool with false by (symmetry; apply orb_false_iff; split; apply Nat.ltb_ge; lia).
  rewrite E. rewrite <- !app_assoc. rewrite (app_assoc a b). rewrite rds_at by (rewrite ?app_length; lia). cbn [bind].
  rewrite <- app_assoc.
  destruct (split_at (b ++ c ++ r) (length c)) as (d & t & Ed & L1 & L2); [rewrite !app_length; lia|].
  rewrite Ed, wrs_at by trivial. cbn [bind]. eexists. split; [reflexivity|].
  split; cbn; [rewrite app_length; lia|]. exists t. now rewrite <- app_assoc.
Qed.

Lemma clear_ok v l : holds v l -> holds (uv_clear v) [].
Proof. intros (C & r & E). split; trivial. now exists (store v). Qed.

Lemma assign_range_ok v l xs : holds v l -> exists v', uv_assign_range v xs = Ok v' /\ holds v' (map Some xs).
Proof.
  intros H. unfold uv_assign_range.
  assert (G : exists mid rest, (if (capacity v <? length xs)%nat then allocate (length xs) else store v) = mid ++ rest /\ length mid = length xs).
  { destruct (Nat.ltb_spec (capacity v) (length xs)) as [Q|Q].
    - exists (allocate (length xs)), []. rewrite app_nil_r. split; trivial. apply allocate_length.
    - destruct (split_at (store v) (length xs)) as (a & b & -> & L & _); [exact Q|]. now exists a, b. }
  destruct G as (mid & rest & -> & L). rewrite wrs_front by now rewrite map_length. cbn [bind].
  eexists. split; [reflexivity|]. split; cbn; [now rewrite map_length|]. now exists rest.
Qed.
End P.

Lemma map_repeat_some {B C} (f : B -> C) x n : map f (repeat x n) = repeat (f x) n.
Proof. induction n; cbn; congruence. Qed.

Lemma map_upd {B C} (f : B -> C) l : forall i x, map f (upd l i x) = upd (map f l) i (f x).
Proof. induction l as [|a l IH]; intros i x; trivial. destruct i; cbn; trivial. now rewrite IH. Qed.

Lemma skipn_skipn {B} (l : list B) : forall n m, skipn n (skipn m l) = skipn (m + n) l.
Proof.
  intros n m. revert l. induction m as [|m IH]; intros l; trivial. destruct l; [now rewrite !skipn_nil|apply IH].
Qed.

Lemma step_ok {A} (o : op A) (v : uvector A) l l' : holds v (map Some l) -> spec_step l o = Some l' ->
  exists v', step v o = Ok v' /\ holds v' (map Some l').
Proof.
  intros H E. destruct o as [x| |n x|n| |pos xs|a b| |xs|i x|xs]; cbn [spec_step step] in *.
  - injection E as <-. rewrite map_app. now apply push_back_ok.
  - assert (E' : l <> [] /\ l' = removelast l) by (destruct l; [discriminate|split; congruence]).
    destruct E' as (Ne & ->). destruct (exists_last Ne) as (l0 & y & ->).
    rewrite removelast_last. rewrite map_app in H. now apply pop_back_ok in H.
  - injection E as <-. destruct (resize_fill_ok v (map Some l) n x H) as (v' & E & H').
    exists v'. split; trivial. now rewrite map_app, <- firstn_map, map_repeat_some, <- (map_length Some l).
  - injection E as <-. destruct (reserve_ok v (map Some l) n H) as (v' & E & H' & _). now exists v'.
  - injection E as <-. destruct (shrink_ok v (map Some l) H) as (v' & E & H' & _). now exists v'.
  - destruct (Nat.leb_spec pos (length l)) as [Q|Q]; [|discriminate]. injection E as <-.
    rewrite <- (firstn_skipn pos l), map_app in H. destruct (insert_ok v _ _ xs H) as (v' & E & H').
    rewrite map_length, firstn_length_le in E by trivial. exists v'. split; trivial. now rewrite !map_app.
  - destruct ((a <=? b)%nat && (b <=? length l)%nat)%bool eqn:Q; [|discriminate]. injection E as <-.
    apply andb_true_iff in Q. destruct Q as (Q1 & Q2). apply Nat.leb_le in Q1, Q2.
    set (p := firstn a l). set (m := firstn (b - a) (skipn a l)).
    assert (El : l = p ++ m ++ skipn b l).
    { unfold p, m. rewrite <- (firstn_skipn a l) at 1. f_equal. rewrite <- (firstn_skipn (b - a) (skipn a l)) at 1.
      f_equal. rewrite skipn_skipn. f_equal. lia. }
    assert (Lp : length p = a) by (unfold p; apply firstn_length_le; lia).
    assert (Lm : length m = (b - a)%nat) by (unfold m; apply firstn_length_le; rewrite skipn_length; lia).
    rewrite El, !map_app in H. destruct (erase_ok v _ _ _ H) as (v' & E & H').
    rewrite !map_length, Lp, Lm in E. replace (a + (b - a))%nat with b in E by lia.
    exists v'. split; trivial. now rewrite map_app.
  - injection E as <-. exists (uv_clear v). split; trivial. eapply clear_ok; eassumption.
  - injection E as <-. eapply assign_range_ok; eassumption.
  - destruct (Nat.ltb_spec i (length l)) as [Q|Q]; [|discriminate]. injection E as <-.
    destruct (set_ok v (map Some l) i x H) as (v' & E & H'); [now rewrite map_length|].
    exists v'. split; trivial. now rewrite map_upd.
  - injection E as <-. rewrite map_app. now apply push_range_ok.
Qed.

Lemma run_ok {A} (os : list (op A)) : forall (v : uvector A) l l', holds v (map Some l) ->
  spec_run l os = Some l' -> exists v', run v os = Ok v' /\ holds v' (map Some l').
Proof.
  induction os as [|o os IH]; intros v l l' H E; cbn in *.
  - injection E as <-. now exists v.
  - destruct (spec_step l o) as [l1|] eqn:E1; [|discriminate].
    destruct (step_ok o v l l1 H E1) as (v1 & S1 & H1). rewrite S1. cbn. now apply (IH v1 l1).
Qed.

Lemma push_back_own_ok {A} (v : uvector A) l i x : holds v l ->
  (length l < capacity v)%nat -> nth_error l i = Some x ->
  exists v', uv_push_back v (Own i) = Ok v' /\ holds v' (l ++ [x]).
Proof.
  intros H L N. apply push_back_ok; trivial. cbn. destruct H as (C & r & E). unfold rd.
  rewrite E, nth_error_app1, N; trivial. apply nth_error_Some. congruence.
Qed.

(** ** Capacity *)

Lemma wrs_length {B} (s : list B) i xs s' : wrs s i xs = Ok s' -> length s' = length s.
Proof.
  unfold wrs. destruct (Nat.leb_spec (i + length xs) (length s)) as [Q|Q]; [|discriminate].
  intros E. injection E as <-. rewrite !app_length, skipn_length, firstn_length_le by lia. lia.
Qed.

Lemma realloc_capacity {A} (v w : uvector A) n : realloc v n = Ok w -> capacity w = n.
Proof.
  unfold realloc. destruct (cells v) as [c| |]; try discriminate. cbn [bind].
  destruct (wrs (allocate n) 0 c) as [s| |] eqn:E; try discriminate. cbn [bind]. intros F. injection F as <-.
  unfold capacity. cbn [store]. rewrite (wrs_length _ _ _ _ E). apply repeat_length.
Qed.

Ltac step_in H := match type of H with
  | (bind ?m _ = Ok _) => let E := fresh "E" in destruct m as [?| |] eqn:E; cbn [bind] in H; try discriminate H
  end.

Lemma step_capacity {A} (o : op A) (v v' : uvector A) l l' : holds v (map Some l) -> spec_step l o = Some l' ->
  step v o = Ok v' -> capacity v' = spec_capacity (capacity v) (length l) o.
Proof.
  intros H S E. pose proof (holds_capacity _ _ H) as HC. rewrite map_length in HC.
  assert (HS : count v = length l) by (destruct H as (-> & _); apply map_length).
  destruct o as [x| |n x|n| |pos xs|a b| |xs|i x|xs]; cbn [step spec_capacity] in *; unfold grown.
  - unfold uv_push_back in E. rewrite HS in E. step_in E. destruct (Nat.eqb_spec (length l) (capacity v)) as [Q|Q].
    + cbn [arg_after bind] in E. rewrite wr_wrs in E. step_in E. injection E as <-. unfold capacity at 1. cbn [store].
      rewrite (wrs_length _ _ _ _ E1). fold (capacity a). rewrite (realloc_capacity _ _ _ E0).
      replace (_ <=? _)%nat with false by (symmetry; apply Nat.leb_gt; lia). unfold enlarge_size, size. now rewrite HS.
    + injection E0 as <-. cbn [arg_after bind] in E. rewrite wr_wrs in E. step_in E. injection E as <-. unfold capacity at 1. cbn [store].
      rewrite (wrs_length _ _ _ _ E0). replace (_ <=? _)%nat with true by (symmetry; apply Nat.leb_le; lia). reflexivity.
  - unfold uv_pop_back in E. destruct (count v); [discriminate|]. now injection E as <-.
  - unfold uv_resize_fill in E. unfold size in E. rewrite HS in E. step_in E.
    assert (Ca : capacity a = Nat.max (capacity v) n).
    { destruct (Nat.ltb_spec (capacity v) n); [rewrite (realloc_capacity _ _ _ E0); lia|injection E0 as <-; lia]. }
    rewrite <- Ca. destruct (length l <? n)%nat; [step_in E|]; injection E as <-; trivial.
    unfold capacity. cbn [store]. exact (wrs_length _ _ _ _ E1).
  - unfold uv_reserve in E. destruct (Nat.ltb_spec (capacity v) n); [rewrite (realloc_capacity _ _ _ E); lia|injection E as <-; lia].
  - destruct (shrink_ok v (map Some l) H) as (w & Ew & _ & Cw). rewrite Ew in E. injection E as <-. now rewrite Cw, map_length.
  - unfold uv_insert in E. destruct (count v <? pos)%nat eqn:Qp; [discriminate|]. step_in E. step_in E. injection E as <-.
    unfold capacity at 1. cbn [store]. rewrite (wrs_length _ _ _ _ E1). fold (capacity a). unfold size in E0. rewrite HS in E0.
    destruct (Nat.ltb_spec (capacity v) (length l + length xs)) as [Q|Q].
    + replace (_ <=? _)%nat with false by (symmetry; apply Nat.leb_gt; lia).
      unfold enlarge_for_insert in E0. step_in E0. step_in E0. step_in E0. step_in E0. injection E0 as <-.
      unfold capacity. cbn [store]. rewrite (wrs_length _ _ _ _ E4), (wrs_length _ _ _ _ E3). unfold allocate, enlarge_size, size.
      now rewrite repeat_length, HS.
    + replace (_ <=? _)%nat with true by (symmetry; apply Nat.leb_le; lia).
      unfold shift_right in E0. step_in E0. step_in E0. injection E0 as <-. unfold capacity. cbn [store]. exact (wrs_length _ _ _ _ E2).
  - unfold uv_erase in E. destruct ((b <? a) || (count v <? b))%nat; [discriminate|]. step_in E. step_in E. injection E as <-.
    unfold capacity. cbn [store]. exact (wrs_length _ _ _ _ E1).
  - now injection E as <-.
  - unfold uv_assign_range in E. step_in E. injection E as <-. unfold capacity at 1. cbn [store]. rewrite (wrs_length _ _ _ _ E0).
    destruct (Nat.ltb_spec (capacity v) (length xs)); unfold allocate; rewrite ?repeat_length; [lia|]. fold (capacity v). lia.
  - unfold uv_set in E. rewrite wr_wrs in E. step_in E. injection E as <-. unfold capacity. cbn [store]. exact (wrs_length _ _ _ _ E0).
  - unfold uv_push_range in E. unfold size in E. rewrite HS in E. step_in E. step_in E. injection E as <-.
    unfold capacity at 1. cbn [store]. rewrite (wrs_length _ _ _ _ E1). fold (capacity a).
    destruct (Nat.ltb_spec (capacity v - length l) (length xs)) as [Q|Q].
    + rewrite (realloc_capacity _ _ _ E0). replace (_ <=? _)%nat with false by (symmetry; apply Nat.leb_gt; lia).
      unfold enlarge_size, size. now rewrite HS.
    + injection E0 as <-. replace (_ <=? _)%nat with true by (symmetry; apply Nat.leb_le; lia). reflexivity.
Qed.

Lemma foldM_snoc {S B} (f : S -> B -> res S) (l : list B) x : forall s, foldM f (l ++ [x]) s = do s' <- foldM f l s; f s' x.
Proof. induction l as [|a l IH]; intros s; cbn; [destruct (f s x); reflexivity|]. destruct (f s a); cbn; trivial. Qed.

(** elements appended one by one *)
Lemma pushes_capacity {A} (xs : list A) : exists v, run uv_empty (map Push xs) = Ok v /\ holds v (map Some xs) /\
  capacity v = match xs with [] => 0 | _ => 2 ^ Nat.log2_up (length xs) end%nat.
Proof.
  induction xs as [|x xs IH] using rev_ind.
  - exists uv_empty. split; trivial. split; [apply empty_holds|trivial].
  - destruct IH as (v & R & H & C). destruct (step_ok (Push x) v xs (xs ++ [x]) H eq_refl) as (w & E & W).
    exists w. rewrite map_app. unfold run in *. cbn [map]. rewrite foldM_snoc, R. cbn [bind]. split; [exact E|]. split; [exact W|].
    rewrite (step_capacity (Push x) v w xs (xs ++ [x]) H eq_refl E). cbn [spec_capacity]. unfold grown. rewrite C, app_length. cbn [length].
    clear. destruct xs as [|y xs]; trivial. set (n := length (y :: xs)). assert (N : (1 <= n)%nat) by (unfold n; cbn; lia).
    cbn [app]. clearbody n. rewrite Nat.add_1_r.
    destruct (Nat.eq_dec n 1) as [->|N1]; [reflexivity|].
    destruct (Nat.log2_up_spec n) as (L1 & L2); [lia|].
    destruct (Nat.leb_spec (S n) (2 ^ Nat.log2_up n)) as [Q|Q].
    + f_equal. symmetry. apply Nat.log2_up_unique; [apply Nat.log2_up_pos; lia|lia].
    + assert (F : n = (2 ^ Nat.log2_up n)%nat) by lia. rewrite Nat.max_l by lia.
      set (k := Nat.log2_up n) in *. clearbody k. pose proof (Nat.pow_succ_r' 2 k) as P.
      replace (Nat.log2_up (S n)) with (S k); [lia|]. symmetry. apply Nat.log2_up_unique; [lia|]. rewrite P. cbn [Nat.pred]. lia.
Qed.

Lemma construct_ok {A} (x : A) (xs : list A) n :
  holds (A:=A) uv_empty [] /\ holds (uv_make n) (repeat (@None A) n) /\ capacity (uv_make (A:=A) n) = n /\
  (exists v, uv_make_fill n x = Ok v /\ holds v (repeat (Some x) n) /\ capacity v = n) /\
  (exists v, uv_make_range xs = Ok v /\ holds v (map Some xs) /\ capacity v = length xs).
Proof.
  split; [apply empty_holds|]. split; [apply make_holds|]. split; [apply repeat_length|].
  split; [apply make_fill_ok|apply make_range_ok].
Qed.

Lemma outside_ok {A} (v : uvector A) l : holds v l ->
  (l = [] -> uv_pop_back v = UB) /\
  (forall pos xs, (length l < pos)%nat -> uv_insert v pos xs = UB) /\
  (forall a b, (b < a)%nat \/ (length l < b)%nat -> uv_erase v a b = UB).
Proof.
  intros (C & _). split; [|split].
  - intros ->. unfold uv_pop_back. now rewrite C.
  - intros pos xs Q. unfold uv_insert. rewrite C. now apply Nat.ltb_lt in Q as ->.
  - intros a b Q. unfold uv_erase. rewrite C. replace (_ || _)%bool with true; trivial.
    symmetry. apply orb_true_iff. destruct Q as [Q|Q]; apply Nat.ltb_lt in Q; auto.
Qed.
