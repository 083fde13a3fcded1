(** Lemmas about the threaded column: thread protocol. *)
From Verif Require Import Base BaseLemmas TimeBlockBuffer TbbSpec TbbProofs Column ColumnSpec.
Local Open Scope N_scope.

(** * Maps *)
Lemma upd_map_same {V} (m : N -> option V) k v : upd_map m k v k = Some v.
Proof. unfold upd_map. now rewrite N.eqb_refl. Qed.

Lemma upd_map_other {V} (m : N -> option V) k v k' : k' <> k -> upd_map m k v k' = m k'.
Proof. unfold upd_map. intros H. apply N.eqb_neq in H. now rewrite H. Qed.

Lemma cached_In {V} (c : list (N * V)) k : cached c k = true <-> exists v, In (k, v) c.
Proof.
  unfold cached. rewrite existsb_exists. split.
  - intros ((k' & v) & Hin & E). apply N.eqb_eq in E. cbn in E. subst k'. now exists v.
  - intros (v & Hin). exists (k, v). split; trivial. apply N.eqb_refl.
Qed.

Lemma cached_false {V} (c : list (N * V)) k : cached c k = false <-> forall v, ~ In (k, v) c.
Proof.
  split.
  - intros H v Hin. assert (cached c k = true) by (apply cached_In; now exists v). congruence.
  - intros H. destruct (cached c k) eqn:E; trivial. apply cached_In in E. destruct E as (v & Hin). now apply H in Hin.
Qed.

Lemma insert_In {V} k (v : V) c p : cached c k = false -> In p (insert k v c) <-> p = (k, v) \/ In p c.
Proof.
  induction c as [|(k' & v') c IH]; cbn [insert In].
  - intros _. split; [intros [<-|[]]; now left|]. intros [->|[]]. now left.
  - unfold cached. cbn [existsb fst]. intros H. apply orb_false_iff in H. destruct H as (H1 & H2).
    apply N.eqb_neq in H1. destruct (k <? k'); [cbn [In]; firstorder congruence|].
    destruct (N.eqb_spec k k'); [congruence|]. cbn [In]. rewrite (IH H2). firstorder congruence.
Qed.

Lemma insert_length {V} k (v : V) c : cached c k = false -> length (insert k v c) = S (length c).
Proof.
  induction c as [|(k' & v') c IH]; cbn [insert length]; trivial.
  unfold cached. cbn [existsb fst]. intros H. apply orb_false_iff in H. destruct H as (H1 & H2).
  apply N.eqb_neq in H1. destruct (k <? k'); trivial. destruct (N.eqb_spec k k'); [congruence|].
  cbn [length]. now rewrite (IH H2).
Qed.

Lemma insert_NoDup {V} k (v : V) c : cached c k = false -> NoDup (map fst c) -> NoDup (map fst (insert k v c)).
Proof.
  induction c as [|(k' & v') c IH]; cbn [insert map fst]; intros H N.
  - constructor; [easy|constructor].
  - pose proof H as H0. unfold cached in H. cbn [existsb fst] in H. apply orb_false_iff in H. destruct H as (H1 & H2).
    apply N.eqb_neq in H1. inversion N as [|? ? N1 N2]; subst. destruct (k <? k').
    + cbn [map fst]. constructor; [|exact N]. intros Hin. apply (in_map_iff fst ((k', v') :: c)) in Hin.
      destruct Hin as ((k2 & v2) & E & Hin). cbn in E. subst k2. apply cached_false with (v := v2) in H0. now apply H0.
    + destruct (N.eqb_spec k k'); [congruence|]. cbn [map fst]. constructor; [|now apply IH].
      intros Hin. apply in_map_iff in Hin. destruct Hin as ((k2 & v2) & E & Hin). cbn in E. subst k2.
      apply insert_In in Hin; [|exact H2]. destruct Hin as [E|Hin]; [congruence|].
      apply N1. apply in_map_iff. now exists (k', v2).
Qed.

Lemma cached_insert {V} k (v : V) c k' : cached c k = false -> cached (insert k v c) k' = (k' =? k) || cached c k'.
Proof.
  intros H. destruct (cached (insert k v c) k') eqn:E; symmetry.
  - apply cached_In in E. destruct E as (v' & E). apply insert_In in E; trivial. apply orb_true_iff. destruct E as [E|E].
    + injection E as -> ->. left. apply N.eqb_refl.
    + right. apply cached_In. now exists v'.
  - apply orb_false_iff. split.
    + apply N.eqb_neq. intros ->. apply cached_false with (v := v) in E. apply E. apply insert_In; auto.
    + apply cached_false. intros v' Hin. apply cached_false with (v := v') in E. apply E. apply insert_In; auto.
Qed.

Lemma erase_In {V} k (c : list (N * V)) p : In p (erase c k) <-> In p c /\ fst p <> k.
Proof. unfold erase. rewrite filter_In. rewrite negb_true_iff, N.eqb_neq. reflexivity. Qed.

Lemma erase_length {V} k (c : list (N * V)) : (length (erase c k) <= length c)%nat.
Proof. unfold erase. induction c as [|p c IH]; cbn [filter length]; [lia|]. destruct (negb _); cbn [length]; lia. Qed.

Lemma erase_NoDup {V} k (c : list (N * V)) : NoDup (map fst c) -> NoDup (map fst (erase c k)).
Proof.
  unfold erase. induction c as [|p c IH]; cbn [filter map]; trivial. intros H. inversion H as [|? ? H1 H2]; subst.
  destruct (negb _); [|now apply IH]. cbn [map]. constructor; [|now apply IH]. intros Hin. apply H1.
  apply in_map_iff in Hin. destruct Hin as (q & E & Hin). apply filter_In in Hin. rewrite <- E. now apply in_map.
Qed.

Lemma cached_erase {V} k (c : list (N * V)) k' : cached (erase c k) k' = negb (k' =? k) && cached c k'.
Proof.
  destruct (cached (erase c k) k') eqn:E; symmetry.
  - apply cached_In in E. destruct E as (v & E). apply erase_In in E. destruct E as (E1 & E2). cbn in E2.
    apply andb_true_iff. split; [now apply negb_true_iff, N.eqb_neq|]. apply cached_In. now exists v.
  - destruct (N.eqb_spec k' k); cbn [negb andb]; trivial. apply cached_false. intros v Hin.
    apply cached_false with (v := v) in E. apply E. now apply erase_In.
Qed.

(** NoDup keys determine the value *)
Lemma key_unique {V} (c : list (N * V)) k v v' : NoDup (map fst c) -> In (k, v) c -> In (k, v') c -> v = v'.
Proof.
  induction c as [|(k2 & v2) c IH]; intros N H1 H2; [easy|]. cbn [map fst] in N. inversion N as [|? ? N1 N2]; subst.
  destruct H1 as [E1|H1], H2 as [E2|H2].
  - congruence.
  - injection E1 as -> ->. exfalso. apply N1. apply in_map_iff. now exists (k, v').
  - injection E2 as -> ->. exfalso. apply N1. apply in_map_iff. now exists (k, v).
  - now apply IH.
Qed.

(** * Items *)
Section items.
Context {A : Type}.
Implicit Type c : list (N * (tbb A * bool)).

Lemma avail_some c b x : isWriteItemAvailable c = Some (b, x) -> In (b, (x, false)) c.
Proof.
  induction c as [|(b' & (x' & w)) c IH]; cbn [isWriteItemAvailable]; [discriminate|].
  destruct w; [right; now apply IH|]. intros [= -> ->]. now left.
Qed.

Lemma avail_none c : isWriteItemAvailable c = None <-> forall b x w, In (b, (x, w)) c -> w = true.
Proof.
  induction c as [|(b' & (x' & w')) c IH]; cbn [isWriteItemAvailable].
  - split; [easy|trivial].
  - destruct w'.
    + rewrite IH. split; intros H b x w; [intros [E|Hin]; [congruence|eauto]|]. intros Hin. apply (H b x w). now right.
    + split; [discriminate|]. intros H. specialize (H b' x' false (or_introl eq_refl)). discriminate.
Qed.

Lemma mark_keys c b : map fst (markWritten c b) = map fst c.
Proof. unfold markWritten. rewrite map_map. apply map_ext. intros (k & v). cbn. now destruct (k =? b). Qed.

Lemma mark_In c b k x w : In (k, (x, w)) (markWritten c b) <->
  (k = b /\ w = true /\ exists w', In (k, (x, w')) c) \/ (k <> b /\ In (k, (x, w)) c).
Proof.
  unfold markWritten. rewrite in_map_iff. split.
  - intros ((k' & (x' & w')) & E & Hin). cbn [fst snd] in E. destruct (N.eqb_spec k' b).
    + injection E as -> -> <-. left. split; trivial. split; trivial. now exists w'.
    + injection E as -> -> ->. now right.
  - intros [(-> & -> & w' & Hin)|(Hn & Hin)].
    + exists (b, (x, w')). cbn [fst snd]. rewrite N.eqb_refl. now split.
    + exists (k, (x, w)). cbn [fst snd]. apply N.eqb_neq in Hn. rewrite Hn. now split.
Qed.

Lemma mark_cached c b k : cached (markWritten c b) k = cached c k.
Proof.
  induction c as [|(k' & v) c IH]; trivial. unfold cached, markWritten in *. cbn [existsb map fst].
  rewrite IH. now destruct (k' =? b).
Qed.

Lemma mark_length c b : length (markWritten c b) = length c.
Proof. apply map_length. Qed.
End items.

(** * Workers *)
Section workers.
Context {A : Type}.
Implicit Type ws : list (wpc A).

Lemma upd_split {B} (l : list B) k x y : nth_error l k = Some x ->
  exists l1 l2, l = l1 ++ x :: l2 /\ upd l k y = l1 ++ y :: l2.
Proof.
  revert k. induction l as [|z l IH]; intros [|k]; cbn [nth_error upd]; try discriminate.
  - intros [= ->]. now exists [], l.
  - intros H. destruct (IH k H) as (l1 & l2 & -> & ->). now exists (z :: l1), l2.
Qed.

Definition busy1 (w : wpc A) : list N := match w with WPicked b _ => [b] | WWritten b => [b] | _ => [] end.

Lemma busy_app ws ws' : busy (ws ++ ws') = busy ws ++ busy ws'.
Proof. unfold busy. now rewrite map_app, concat_app. Qed.

Lemma busy_cons w ws : busy (w :: ws) = busy1 w ++ busy ws.
Proof. reflexivity. Qed.

Lemma busy_In ws b : In b (busy ws) <-> (exists x, In (WPicked b x) ws) \/ In (WWritten b) ws.
Proof.
  unfold busy. rewrite in_concat. split.
  - intros (l & Hl & Hb). apply in_map_iff in Hl. destruct Hl as (w & <- & Hw).
    destruct w; cbn in Hb; try easy; destruct Hb as [->|[]]; [left; eauto|now right].
  - intros [(x & H)|H].
    + exists [b]. split; [|now left]. apply in_map_iff. now exists (WPicked b x).
    + exists [b]. split; [|now left]. apply in_map_iff. now exists (WWritten b).
Qed.

Lemma busy_wake ws : busy (map wake ws) = busy ws.
Proof. induction ws as [|w ws IH]; trivial. cbn [map]. rewrite !busy_cons, IH. now destruct w. Qed.

Lemma wake_In ws w : In w (map wake ws) <-> w <> WWait /\ (In w ws \/ (w = WWoken /\ In WWait ws)).
Proof.
  rewrite in_map_iff. split.
  - intros (w' & <- & H). split; [now destruct w'|]. destruct w'; cbn [wake]; auto.
  - intros (Hn & [H|(-> & H)]).
    + exists w. split; trivial. now destruct w.
    + now exists WWait.
Qed.

Lemma wake_nil ws : map wake ws = [] <-> ws = [].
Proof. destruct ws; split; easy. Qed.
End workers.

(** * The invariant of the thread protocol *)
Definition quiet {e} (s : state e) : Prop := cache s = [] /\ forall b, last s b = None.

(** between calls and during ordinary calls *)
Definition base {e} (s : state e) : Prop :=
  closed s = false /\ mgr s = false /\ (workers s <> [] -> stopF s = false) /\
  (rpb s = 0 -> quiet s) /\ (rpb s <> 0 -> workers s <> []).

Definition maybe_store {A} (st : bool) : list (instr A) := if st then [IStore] else [].

(** The possible contents of [code], with what holds then. *)
Inductive phase {e} (s : state e) : list (instr (data e)) -> Prop :=
| ph_idle : base s -> phase s []
| ph_put row d : base s -> row < 2 ^ 32 -> phase s [IPut row d]
| ph_putrow row d : base s -> row < 2 ^ 32 -> phase s [IPutRow row d]
| ph_set row d : base s -> row < 2 ^ 32 -> rpb s <> 0 -> cur s = row / rpb s -> phase s [ISet (row mod rpb s) row d]
| ph_loadset st row d : base s -> row < 2 ^ 32 -> rpb s <> 0 -> cur s <> row / rpb s -> changed s = st ->
    phase s (maybe_store st ++ [ILoad (row / rpb s); ISet (row mod rpb s) row d])
| ph_get row : base s -> row < 2 ^ 32 -> phase s [IGet row]
| ph_waitnot row : base s -> row < 2 ^ 32 -> rpb s <> 0 -> phase s [IWaitNot (row / rpb s); IGetRow row]
| ph_getrow row : base s -> row < 2 ^ 32 -> rpb s <> 0 -> cached (cache s) (row / rpb s) = false -> phase s [IGetRow row]
| ph_loadread st row : base s -> row < 2 ^ 32 -> rpb s <> 0 -> cur s <> row / rpb s -> changed s = st ->
    cached (cache s) (row / rpb s) = false -> phase s (maybe_store st ++ [ILoad (row / rpb s); IRead row])
| ph_read row : base s -> row < 2 ^ 32 -> rpb s <> 0 -> cur s = row / rpb s -> phase s [IRead row]
(* another column or this one found the block size *)
| ph_setrpb n m t : base s -> rpb s = 0 -> (t = [] \/ exists row d, row < 2 ^ 32 /\ t = [IPutRow row d]) ->
    phase s (ISetRpb n m :: IStop :: IStart :: t)
| ph_initstop t : closed s = false -> mgr s = false -> quiet s -> (workers s <> [] -> stopF s = false) ->
    (t = [] \/ exists row d, row < 2 ^ 32 /\ t = [IPutRow row d]) -> phase s (IStop :: IStart :: t)
| ph_initjoin t : closed s = false -> mgr s = false -> quiet s -> stopF s = true -> workers s <> [] ->
    (t = [] \/ exists row d, row < 2 ^ 32 /\ t = [IPutRow row d]) -> phase s (IJoin :: IStart :: t)
| ph_initstart t : closed s = false -> mgr s = false -> quiet s -> workers s = [] ->
    (t = [] \/ exists row d, row < 2 ^ 32 /\ t = [IPutRow row d]) -> phase s (IStart :: t)
(* prepare *)
| ph_lock : base s -> phase s [ILock; IStop; IReset; IPrepared; IUnlock]
| ph_prepstop : closed s = false -> mgr s = true -> (workers s <> [] -> stopF s = false) ->
    (rpb s = 0 -> quiet s) -> (rpb s <> 0 -> workers s <> []) -> phase s [IStop; IReset; IPrepared; IUnlock]
| ph_prepjoin : closed s = false -> mgr s = true -> stopF s = true -> workers s <> [] -> cache s = [] ->
    (rpb s = 0 -> quiet s) -> phase s [IJoin; IReset; IPrepared; IUnlock]
| ph_reset : closed s = false -> mgr s = true -> workers s = [] -> cache s = [] ->
    (rpb s = 0 -> quiet s) -> phase s [IReset; IPrepared; IUnlock]
| ph_prepared : closed s = false -> mgr s = true -> workers s = [] -> cache s = [] ->
    (rpb s = 0 -> quiet s) -> phase s [IPrepared; IUnlock]
| ph_prepstop2 : closed s = false -> mgr s = true -> workers s = [] -> cache s = [] -> rpb s <> 0 ->
    phase s [IStop; IStart; IUnlock]
| ph_prepstart : closed s = false -> mgr s = true -> workers s = [] -> cache s = [] -> rpb s <> 0 ->
    phase s [IStart; IUnlock]
| ph_unlock : closed s = false -> mgr s = true -> (workers s <> [] -> stopF s = false) ->
    (rpb s = 0 -> quiet s) -> (rpb s <> 0 -> workers s <> []) -> phase s [IUnlock]
(* shutdown *)
| ph_shutdown : base s -> phase s [IShutdown]
| ph_shutstore : closed s = true -> mgr s = false -> changed s = true -> (workers s <> [] -> stopF s = false) ->
    (rpb s = 0 -> quiet s) -> (rpb s <> 0 -> workers s <> []) -> phase s [IStore; IStop]
| ph_shutstop : closed s = true -> mgr s = false -> changed s = false -> (workers s <> [] -> stopF s = false) ->
    (rpb s <> 0 -> workers s <> []) -> phase s [IStop]
| ph_shutjoin : closed s = true -> mgr s = false -> changed s = false -> stopF s = true -> workers s <> [] -> cache s = [] ->
    phase s [IJoin]
| ph_closed : closed s = true -> mgr s = false -> changed s = false -> workers s = [] -> cache s = [] -> phase s [].

(** why the calling thread waits *)
Definition blocked {e} (s : state e) : Prop :=
  match code s with
  | IStore :: _ => (maxCache e <= length (cache s))%nat \/ cached (cache s) (cur s) = true
  | IWaitNot b :: _ => cached (cache s) b = true
  | IStop :: _ => cache s <> [] /\ workers s <> []
  | _ => False
  end.

Record inv {e} (f0 : N -> option (bytes e)) (s : state e) : Prop := {
  i_nodup : NoDup (map fst (cache s));
  i_max : (length (cache s) <= maxCache e)%nat;
  i_busy1 : NoDup (busy (workers s));
  i_busy : forall b, In b (busy (workers s)) <-> exists x, In (b, (x, true)) (cache s);
  i_picked : forall b x, In (WPicked b x) (workers s) -> In (b, (x, true)) (cache s);
  i_written : forall b x, In (WWritten b) (workers s) -> last s b = Some x ->
    exists y, file s b = Some y /\ enc e (rpb s) (nant s) x y;
  i_last : forall b x w, In (b, (x, w)) (cache s) -> last s b = Some x;
  i_disk : forall b x, last s b = Some x -> cached (cache s) b = false ->
    exists y, file s b = Some y /\ enc e (rpb s) (nant s) x y;
  i_file : forall b, last s b = None -> file s b = f0 b;
  i_wait : In WWait (workers s) -> stopF s = false /\ forall b x w, In (b, (x, w)) (cache s) -> w = true;
  i_done : In WDone (workers s) -> stopF s = true;
  i_mwait : mwait s = true -> blocked s;
  i_phase : phase s (code s) }.

Lemma not_cached_busy {e} f0 (s : state e) b : inv f0 s -> cached (cache s) b = false -> ~ In b (busy (workers s)).
Proof. intros I H Hb. apply (i_busy _ _ I) in Hb. destruct Hb as (x & Hin). apply cached_false with (v := (x, true)) in H. contradiction. Qed.
