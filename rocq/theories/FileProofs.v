(** Lemmas about files and streams. *)
From Verif Require Import Base File.
Local Open Scope N_scope.

Lemma le_length n v : length (le n v) = n.
Proof. revert v. induction n; intros; cbn; auto. Qed.

Lemma len_app a b : len (a ++ b) = len a + len b.
Proof. unfold len. rewrite app_length. lia. Qed.
Lemma len_le n v : len (le n v) = N.of_nat n.
Proof. unfold len. now rewrite le_length. Qed.

Lemma of_le_le n v : v < 256 ^ N.of_nat n -> of_le (le n v) = v.
Proof.
  revert v. induction n as [|n IH]; intros v H; cbn [le of_le].
  - change (256 ^ N.of_nat 0) with 1 in H. lia.
  - rewrite IH.
    + pose proof (N.div_mod v 256 ltac:(lia)). lia.
    + rewrite Nat2N.inj_succ, N.pow_succ_r' in H. apply N.div_lt_upper_bound; lia.
Qed.

Lemma bytes_length f off n : length (bytes f off n) = n.
Proof. unfold bytes. now rewrite map_length, seq_length. Qed.

Lemma bytes_ext f g off n : (forall i, off <= i < off + N.of_nat n -> fbyte f i = fbyte g i) -> bytes f off n = bytes g off n.
Proof. intros H. unfold bytes. apply map_ext_in. intros k Hk. apply in_seq in Hk. apply H. lia. Qed.

Lemma bytes_app f off a b : bytes f off (a + b) = bytes f off a ++ bytes f (off + N.of_nat a) b.
Proof.
  unfold bytes. rewrite seq_app, map_app. f_equal. rewrite <- (map_id (seq (0 + a) b)) at 1.
  replace (seq (0 + a) b) with (map (fun k => a + k)%nat (seq 0 b)).
  - rewrite map_map, map_map. apply map_ext. intros k. f_equal. lia.
  - clear. generalize 0%nat as s. induction b as [|b IH]; intros s; cbn; trivial. f_equal; [lia|]. now rewrite IH.
Qed.

Lemma fbyte_fwrite_in f off bs k : (k < length bs)%nat -> fbyte (fwrite f off bs) (off + N.of_nat k) = nth k bs 0.
Proof.
  intros Hk. destruct bs as [|b bs]; [cbn in Hk; lia|]. unfold fwrite. cbn [fbyte].
  replace ((off <=? off + N.of_nat k) && (off + N.of_nat k <? off + len (b :: bs)))%bool with true.
  - f_equal. lia.
  - symmetry. apply andb_true_iff. split; [apply N.leb_le; lia|apply N.ltb_lt; unfold len; lia].
Qed.

Lemma bytes_fwrite f off bs : bytes (fwrite f off bs) off (length bs) = bs.
Proof.
  apply nth_ext with (d := 0) (d' := 0); [apply bytes_length|].
  intros k Hk. rewrite bytes_length in Hk. unfold bytes.
  rewrite (nth_indep _ 0 (fbyte (fwrite f off bs) (off + N.of_nat 0)%N)) by (rewrite map_length, seq_length; lia).
  rewrite (map_nth (fun k => fbyte (fwrite f off bs) (off + N.of_nat k)) (seq 0 (length bs)) 0%nat k), seq_nth by lia.
  now apply fbyte_fwrite_in.
Qed.

(** [bs] is in the file at [off] *)
Definition at_ (f : file) (off : N) (bs : list N) : Prop :=
  off + len bs <= fsize f /\ bytes f off (length bs) = bs.

Lemma at_fwrite f off bs : bs <> [] -> at_ (fwrite f off bs) off bs.
Proof.
  intros H. split; [|apply bytes_fwrite]. destruct bs; [easy|]. cbn [fwrite fsize]. lia.
Qed.

Lemma at_app f off a b : at_ f off (a ++ b) <-> at_ f off a /\ at_ f (off + len a) b.
Proof.
  unfold at_. rewrite len_app, app_length, bytes_app. fold (len a). split.
  - intros (L & E). apply app_eq_app in E. assert (X : bytes f off (length a) = a /\ bytes f (off + len a) (length b) = b).
    { destruct E as (l & [(E1 & E2)|(E1 & E2)]).
      - assert (l = []) as -> by (apply (f_equal (@length N)) in E1; rewrite app_length, bytes_length in E1; destruct l; trivial; cbn in E1; lia).
        rewrite app_nil_r in E1. cbn in E2. now split.
      - assert (l = []) as -> by (apply (f_equal (@length N)) in E1; rewrite app_length, bytes_length in E1; destruct l; trivial; cbn in E1; lia).
        rewrite app_nil_r in E1. cbn in E2. now split. }
    destruct X. repeat split; trivial; lia.
  - intros ((L1 & E1) & L2 & E2). rewrite E1, E2. split; trivial. lia.
Qed.

Lemma at_iread f off bs : at_ f off bs -> iread f (length bs) (IStream off false) = (Some bs, IStream (off + len bs) false).
Proof.
  intros (L & E). unfold iread. cbn [ifail ipos]. fold (len bs). rewrite (proj2 (N.leb_le _ _) L). now rewrite E.
Qed.

Lemma at_iread_int f off n v : v < 256 ^ N.of_nat n -> at_ f off (le n v) ->
  iread_int f n (IStream off false) = (Some v, IStream (off + N.of_nat n) false).
Proof.
  intros Hv H. unfold iread_int. apply at_iread in H. rewrite le_length, len_le in H. rewrite H. cbn. now rewrite of_le_le.
Qed.

(** the stream after reading [n] bytes *)
Definition adv (f : file) (n : N) (s : istream) : istream :=
  if ifail s then s else if ipos s + n <=? fsize f then IStream (ipos s + n) false else IStream (fsize f) true.

Lemma iread_adv f n s : snd (iread f n s) = adv f (N.of_nat n) s.
Proof. unfold iread, adv. destruct (ifail s); trivial. now destruct (_ <=? _). Qed.
Lemma iread_int_adv f n s : snd (iread_int f n s) = adv f (N.of_nat n) s.
Proof. unfold iread_int. rewrite <- iread_adv. now destruct (iread f n s). Qed.
Lemma iread_int_some f n s : ifail (adv f (N.of_nat n) s) = false -> exists v, fst (iread_int f n s) = Some v.
Proof.
  unfold iread_int, iread, adv. destruct (ifail s) eqn:E; [rewrite E; discriminate|]. destruct (_ <=? _); cbn; [eauto|discriminate].
Qed.

Lemma adv_adv f a b s : ifail (adv f b (adv f a s)) = ifail (adv f (a + b) s) /\
  (ifail (adv f (a + b) s) = false -> adv f b (adv f a s) = adv f (a + b) s).
Proof.
  unfold adv. destruct (ifail s) eqn:E; [rewrite E; now split|].
  destruct (N.leb_spec (ipos s + a) (fsize f)); cbn [ifail ipos].
  - rewrite N.add_assoc. split; trivial.
  - destruct (N.leb_spec (ipos s + (a + b)) (fsize f)); [lia|]. cbn. split; [trivial|discriminate].
Qed.

Lemma adv_fail f n s : ifail s = true -> adv f n s = s.
Proof. unfold adv. now intros ->. Qed.

Lemma adv_failed_later f a b s : ifail (adv f a s) = true -> ifail (adv f (a + b) s) = true.
Proof. intros H. rewrite <- (proj1 (adv_adv f a b s)). now rewrite (adv_fail f b _ H). Qed.

(** writes elsewhere *)
Lemma fbyte_fwrite_other f off bs i : (i < off \/ off + len bs <= i) -> i < fsize f -> fbyte (fwrite f off bs) i = fbyte f i.
Proof.
  intros H L. destruct bs as [|b bs]; trivial. cbn [fwrite fbyte].
  replace ((off <=? i) && (i <? off + len (b :: bs)))%bool with false.
  - now rewrite (proj2 (N.ltb_lt _ _) L).
  - symmetry. apply andb_false_iff. destruct H; [left; apply N.leb_gt; lia|right; apply N.ltb_ge; lia].
Qed.

Lemma fsize_fwrite f off bs : bs <> [] -> fsize (fwrite f off bs) = N.max (fsize f) (off + len bs).
Proof. now destruct bs. Qed.
Lemma fsize_fwrite_le f off bs : fsize f <= fsize (fwrite f off bs).
Proof. destruct bs; cbn [fwrite fsize]; lia. Qed.

Lemma at_fwrite_other f off bs off' bs' : at_ f off' bs' -> (off' + len bs' <= off \/ off + len bs <= off') ->
  at_ (fwrite f off bs) off' bs'.
Proof.
  intros (L & E) H. split; [pose proof (fsize_fwrite_le f off bs); lia|].
  rewrite <- E at 2. apply bytes_ext. intros i Hi. fold (len bs') in Hi. apply fbyte_fwrite_other; lia.
Qed.
