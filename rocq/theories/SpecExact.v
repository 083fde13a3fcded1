(** Exactly which specification records are accepted, and as which settings.  Proof file. *)
From Coq Require Import String.
From Verif Require Import Base SpecRecord.
Local Open Scope string_scope.
Local Open Scope N_scope.

(** the names that can be used in a record *)
Definition dist_names : list (string * dist) :=
  [("Uniform", Uniform); ("Gaussian", Gaussian); ("StudentT", StudentsT); ("TruncatedGaussian", TruncatedGaussian)].
Definition norm_names : list (string * norm) := [("RF", kRF); ("AF", kAF); ("Row", kRow)].

(** the record says these settings: all fields are there, with values of the right kind, only
    studentTNu may be missing and is then zero *)
Record says (r : record) (s : settings) : Prop := {
  says_data : exists d, field r "dataBitCount" = Some (VUInt d) /\ s_dataBits s = d mod 2 ^ 32;
  says_data0 : s_dataBits s <> 0;
  says_weight : exists w, field r "weightBitCount" = Some (VUInt w) /\ s_weightBits s = w mod 2 ^ 32;
  says_weight0 : s_weightBits s <> 0;
  says_dist : exists x, field r "distribution" = Some (VString x) /\ In (x, s_dist s) dist_names;
  says_norm : exists x, field r "normalization" = Some (VString x) /\ In (x, s_norm s) norm_names;
  says_nu : field r "studentTNu" = Some (VDouble (s_nu s)) \/ (field r "studentTNu" = None /\ s_nu s = 0);
  says_truncation : field r "distributionTruncation" = Some (VDouble (s_truncation s)) }.

Lemma asUInt_Ok r k n : asUInt r k = Ok n <-> exists d, field r k = Some (VUInt d) /\ n = d mod 2 ^ 32.
Proof.
  unfold asUInt. destruct (field r k) as [[d|x|x]|]; split; try discriminate; try (intros (y & E & _); discriminate E).
  - intros [= <-]. eauto.
  - intros (y & [= <-] & ->). reflexivity.
Qed.
Lemma asString_Ok r k n : asString r k = Ok n <-> field r k = Some (VString n).
Proof. unfold asString. destruct (field r k) as [[d|x|x]|]; split; congruence. Qed.
Lemma asDouble_Ok r k n : asDouble r k = Ok n <-> field r k = Some (VDouble n).
Proof. unfold asDouble. destruct (field r k) as [[d|x|x]|]; split; congruence. Qed.
Lemma bind_Ok {A B} (x : res A) (f : A -> res B) b : bind x f = Ok b <-> exists a, x = Ok a /\ f a = Ok b.
Proof. destruct x; cbn; split; try discriminate; try (intros (a' & E & _); discriminate E); [eauto|]. now intros (a' & [= <-] & H). Qed.
Lemma dist_Ok x d : (if String.eqb x "Uniform" then Ok Uniform else if String.eqb x "Gaussian" then Ok Gaussian
  else if String.eqb x "StudentT" then Ok StudentsT else if String.eqb x "TruncatedGaussian" then Ok TruncatedGaussian else Throw) = Ok d <-> In (x, d) dist_names.
Proof.
  cbn [In dist_names]. destruct (String.eqb_spec x "Uniform") as [->|]; [split; [intros [= <-]; auto|]; intros H; repeat (destruct H as [H|H]; [congruence|]); easy|].
  destruct (String.eqb_spec x "Gaussian") as [->|]; [split; [intros [= <-]; auto|]; intros H; repeat (destruct H as [H|H]; [congruence|]); easy|].
  destruct (String.eqb_spec x "StudentT") as [->|]; [split; [intros [= <-]; auto|]; intros H; repeat (destruct H as [H|H]; [congruence|]); easy|].
  destruct (String.eqb_spec x "TruncatedGaussian") as [->|]; [split; [intros [= <-]; auto|]; intros H; repeat (destruct H as [H|H]; [congruence|]); easy|].
  split; [discriminate|]. intros H; repeat (destruct H as [H|H]; [congruence|]); easy.
Qed.
Lemma norm_Ok x d : (if String.eqb x "RF" then Ok kRF else if String.eqb x "AF" then Ok kAF else if String.eqb x "Row" then Ok kRow else Throw) = Ok d <-> In (x, d) norm_names.
Proof.
  cbn [In norm_names]. destruct (String.eqb_spec x "RF") as [->|]; [split; [intros [= <-]; auto|]; intros H; repeat (destruct H as [H|H]; [congruence|]); easy|].
  destruct (String.eqb_spec x "AF") as [->|]; [split; [intros [= <-]; auto|]; intros H; repeat (destruct H as [H|H]; [congruence|]); easy|].
  destruct (String.eqb_spec x "Row") as [->|]; [split; [intros [= <-]; auto|]; intros H; repeat (destruct H as [H|H]; [congruence|]); easy|].
  split; [discriminate|]. intros H; repeat (destruct H as [H|H]; [congruence|]); easy.
Qed.
Lemma nu_Ok r n : (match field r "studentTNu" with Some _ => asDouble r "studentTNu" | None => Ok 0 end) = Ok n <->
  field r "studentTNu" = Some (VDouble n) \/ (field r "studentTNu" = None /\ n = 0).
Proof.
  unfold asDouble. destruct (field r "studentTNu") as [[d|x|x]|]; split; try discriminate; try (intros [H|[H _]]; congruence); intros H.
  - injection H as ->. now left.
  - injection H as <-. now right.
  - destruct H as [H|[_ ->]]; [discriminate|reflexivity].
Qed.

Lemma setFromSpec_exact s0 r s : setFromSpec s0 r = Ok s <->
  (field r "dataBitCount" = None /\ s = s0) \/ says r s.
Proof.
  unfold setFromSpec. destruct (field r "dataBitCount") as [v|] eqn:E.
  - rewrite bind_Ok. split.
    + intros (d & D & H). right. destruct (N.eqb_spec d 0) as [|D0]; [discriminate|]. apply bind_Ok in H as (w & W & H).
      destruct (N.eqb_spec w 0) as [|W0]; [discriminate|]. apply bind_Ok in H as (ds & Ds & H). apply bind_Ok in H as (di & Di & H).
      apply bind_Ok in H as (ns & Ns & H). apply bind_Ok in H as (no & No & H). apply bind_Ok in H as (nu & Nu & H). apply bind_Ok in H as (tr & Tr & H).
      injection H as <-. apply asUInt_Ok in D. apply asUInt_Ok in W. apply asString_Ok in Ds. apply asString_Ok in Ns. apply asDouble_Ok in Tr.
      apply dist_Ok in Di. apply norm_Ok in No. apply nu_Ok in Nu. constructor; cbn; eauto.
    + intros [[H _]|[D D0 W W0 (ds & Ds & Di) (ns & Ns & No) Nu Tr]]; [discriminate|]. destruct s as [d w di no nu tr]. cbn in *.
      exists d. split; [now apply asUInt_Ok|]. rewrite (proj2 (N.eqb_neq d 0)) by trivial.
      apply bind_Ok. exists w. split; [now apply asUInt_Ok|]. rewrite (proj2 (N.eqb_neq w 0)) by trivial.
      apply bind_Ok. exists ds. split; [now apply asString_Ok|]. apply bind_Ok. exists di. split; [now apply dist_Ok|].
      apply bind_Ok. exists ns. split; [now apply asString_Ok|]. apply bind_Ok. exists no. split; [now apply norm_Ok|].
      apply bind_Ok. exists nu. split; [now apply nu_Ok|]. apply bind_Ok. exists tr. split; [now apply asDouble_Ok|]. reflexivity.
  - split.
    + intros [= <-]. now left.
    + intros [[_ ->]|H]; [reflexivity|]. destruct (says_data _ _ H) as (d & D & _). congruence.
Qed.
Lemma setFromSpec_defined s0 r : setFromSpec s0 r <> UB.
Proof.
  unfold setFromSpec, asUInt, asString, asDouble. destruct (field r "dataBitCount") as [[d|x|x]|]; cbn [bind]; try discriminate.
  destruct (_ =? 0); [discriminate|]. destruct (field r "weightBitCount") as [[w|x|x]|]; cbn [bind]; try discriminate.
  destruct (_ =? 0); [discriminate|]. destruct (field r "distribution") as [[w'|x|x]|]; cbn [bind]; try discriminate.
  match goal with |- bind ?x _ <> _ => assert (N : x <> UB) by (repeat (destruct (String.eqb _ _); [discriminate|]); discriminate); destruct x end; cbn [bind]; try discriminate; [|easy].
  destruct (field r "normalization") as [[w'|y|y]|]; cbn [bind]; try discriminate. clear N.
  match goal with |- bind ?x _ <> _ => assert (N : x <> UB) by (repeat (destruct (String.eqb _ _); [discriminate|]); discriminate); destruct x end; cbn [bind]; try discriminate; [|easy].
  destruct (field r "studentTNu") as [[?|?|?]|]; cbn [bind]; try discriminate; destruct (field r "distributionTruncation") as [[?|?|?]|]; discriminate.
Qed.
