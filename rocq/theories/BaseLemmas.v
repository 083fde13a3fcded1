(** Lemmas about lists and the outcome monad, used by several models. *)
From Verif Require Import Base.

Lemma mapM_ok {A B} (f : A -> res B) (P : A -> B -> Prop) l :
  (forall a, In a l -> exists b, f a = Ok b /\ P a b) ->
  exists bs, mapM f l = Ok bs /\ Forall2 P l bs.
Proof.
  induction l as [|a l IH]; intros H; cbn.
  - exists []. now split.
  - destruct (H a) as (b & E & Pb); [now left|]. destruct IH as (bs & Es & F); [intros; apply H; now right|].
    rewrite E, Es. cbn. exists (b :: bs). split; trivial. now constructor.
Qed.

Lemma mapM_map {A B} (f : A -> res B) (g : A -> B) l :
  (forall a, In a l -> f a = Ok (g a)) -> mapM f l = Ok (map g l).
Proof.
  induction l as [|a l IH]; intros H; cbn; trivial. rewrite H by now left. rewrite IH; trivial. intros; apply H; now right.
Qed.

Lemma Forall2_nth {A B} (P : A -> B -> Prop) l bs : Forall2 P l bs -> forall i a, nth_error l i = Some a ->
  exists b, nth_error bs i = Some b /\ P a b.
Proof.
  induction 1 as [|a b l bs H F IH]; intros i x N; [destruct i; discriminate|].
  destruct i; cbn in N; [injection N as <-; now exists b|]. now apply IH.
Qed.

Lemma Forall2_nth_r {A B} (P : A -> B -> Prop) l bs : Forall2 P l bs -> forall i b, nth_error bs i = Some b ->
  exists a, nth_error l i = Some a /\ P a b.
Proof.
  induction 1 as [|a b l bs H F IH]; intros i x N; [destruct i; discriminate|].
  destruct i; cbn in N; [injection N as <-; now exists a|]. now apply IH.
Qed.

Lemma Forall2_len {A B} (P : A -> B -> Prop) l bs : Forall2 P l bs -> length bs = length l.
Proof. induction 1; cbn; lia. Qed.

Lemma mapM_inv {A B} (f : A -> res B) l : forall bs, mapM f l = Ok bs -> Forall2 (fun a b => f a = Ok b) l bs.
Proof.
  induction l as [|a l IH]; intros bs E; cbn in E.
  - injection E as <-. constructor.
  - destruct (f a) as [b| |] eqn:Ea; cbn in E; try discriminate.
    destruct (mapM f l) as [bs'| |] eqn:El; cbn in E; try discriminate. injection E as <-. constructor; auto.
Qed.

Lemma mapM_UB {A B} (f : A -> res B) l a : In a l -> f a = UB -> (forall x, In x l -> f x <> Throw) -> mapM f l = UB.
Proof.
  induction l as [|b l IH]; intros H E NT; [easy|]. cbn.
  destruct (f b) as [y| |] eqn:Eb; cbn; trivial.
  - destruct H as [<-|H]; [congruence|]. rewrite IH; trivial. intros x Hx. apply NT. now right.
  - exfalso. apply (NT b); trivial. now left.
Qed.

Lemma concat_length_const {A} (ls : list (list A)) n : Forall (fun l => length l = n) ls -> length (concat ls) = (length ls * n)%nat.
Proof. induction 1 as [|l ls H F IH]; cbn; trivial. rewrite app_length. lia. Qed.

Lemma concat_nth {A} (ls : list (list A)) n : Forall (fun l => length l = n) ls -> forall i j l, nth_error ls i = Some l ->
  (j < n)%nat -> nth_error (concat ls) (i * n + j) = nth_error l j.
Proof.
  induction 1 as [|l0 ls H F IH]; intros i j l N Hj; [destruct i; discriminate|].
  destruct i; cbn [nth_error concat] in *.
  - injection N as <-. cbn. rewrite nth_error_app1; trivial. lia.
  - rewrite nth_error_app2 by lia. replace (S i * n + j - length l0)%nat with (i * n + j)%nat by lia. now apply IH.
Qed.

Lemma nth_error_seq a n i : (i < n)%nat -> nth_error (seq a n) i = Some (a + i)%nat.
Proof.
  revert a i. induction n as [|n IH]; intros a i H; [lia|]. destruct i; cbn; [f_equal; lia|]. rewrite IH by lia. f_equal. lia.
Qed.

Lemma nth_error_In_ex {A} (l : list A) x : In x l -> exists i, nth_error l i = Some x.
Proof. apply In_nth_error. Qed.

Lemma nth_error_repeat_lt {A} (x : A) n i : (i < n)%nat -> nth_error (repeat x n) i = Some x.
Proof. revert i. induction n as [|n IH]; intros i H; [lia|]. destruct i; cbn; trivial. apply IH. lia. Qed.

Lemma nth_error_firstn_lt {A} (l : list A) n i : (i < n)%nat -> nth_error (firstn n l) i = nth_error l i.
Proof.
  revert n i. induction l as [|a l IH]; intros n i H; [now rewrite firstn_nil|]. destruct n; [lia|].
  destruct i; cbn; trivial. apply IH. lia.
Qed.

Lemma nth_error_skipn_add {A} (l : list A) n i : nth_error (skipn n l) i = nth_error l (n + i).
Proof. revert n. induction l as [|a l IH]; intros n; destruct n; cbn; trivial; try (now destruct i). Qed.

Lemma rd_nth {A} (l : list A) i x : nth_error l i = Some x -> rd l i = Ok x.
Proof. intros H. unfold rd. now rewrite H. Qed.
