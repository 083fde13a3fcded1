(** Property theorems C05-C07: Dictionary searches.  Statements only. *)
From Verif Require Import Base Floats Dictionary DictSpec DictionaryProofs.

(** C05: the search used by the encoders (dictionary.h:31) *)
Theorem C05_lower_bound_correct : forall l v,
  (1 <= length l)%nat -> sorted l ->
  exists r, lower_bound false l v = Ok r /\ is_lower_bound l v r.
Proof. exact lower_bound_correct. Qed.
Print Assumptions C05_lower_bound_correct.

Theorem C05_lower_bound_unique : forall l v r r',
  is_lower_bound l v r -> is_lower_bound l v r' -> r = r'.
Proof. exact lower_bound_unique. Qed.
Print Assumptions C05_lower_bound_unique.

(** [1; 2; 2; 2.5; 3], with duplicates and a size that is not 2^k-1 *)
Definition ex_dict : list f32 := [lit32 1 0; lit32 1 1; lit32 1 1; lit32 5 (-1); lit32 3 0].

Lemma ex_dict_sorted : sorted ex_dict.
Proof.
  apply sorted_dec; vm_compute; reflexivity.
Qed.

Example C05_example :
  sorted ex_dict /\
  lower_bound false ex_dict (lit32 1 1) = Ok 1%nat /\
  lower_bound false ex_dict (lit32 9 (-2)) = Ok 3%nat /\
  lower_bound false ex_dict (lit32 7 0) = Ok 5%nat /\
  lower_bound false ex_dict (lit32 (-7) 0) = Ok 0%nat.
Proof. split; [exact ex_dict_sorted|]. repeat split; vm_compute; reflexivity. Qed.

(** C06 *)
Theorem C06_variants_agree : forall l v,
  (2 <= length l)%nat -> strictly_sorted l -> no_nan l ->
  exists r, is_lower_bound l v r /\
    lower_bound false l v = Ok r /\
    lower_bound_branchless false l v = Ok r /\
    lower_bound_two_minimum l v = Ok r /\
    lower_bound_one_minimum l v = Ok r /\
    lower_bound_slow l v = Ok r.
Proof. exact variants_agree. Qed.
Print Assumptions C06_variants_agree.

(** without strictness (duplicates), the documented result "first element not
    less than the value" is not returned by the three older variants *)
Theorem C06_duplicates_refuted : exists l v,
  (2 <= length l)%nat /\ sorted l /\
  lower_bound false l v = Ok 1%nat /\ is_lower_bound l v 1 /\
  lower_bound_two_minimum l v = Ok 2%nat /\
  lower_bound_one_minimum l v = Ok 2%nat /\
  lower_bound_slow l v = Ok 2%nat.
Proof.
  exists ex_dict, (lit32 1 1). split; [cbn; lia|]. split; [exact ex_dict_sorted|].
  assert (E : lower_bound false ex_dict (lit32 1 1) = Ok 1%nat) by (vm_compute; reflexivity).
  split; [exact E|]. split.
  - destruct (lower_bound_correct ex_dict (lit32 1 1)) as (r & Er & Hr);
      [cbn; lia|exact ex_dict_sorted|]. rewrite E in Er. injection Er as <-. exact Hr.
  - repeat split; vm_compute; reflexivity.
Qed.
Print Assumptions C06_duplicates_refuted.

Example C06_example :
  let l := [lit32 1 0; lit32 1 1; lit32 5 (-1); lit32 3 0] in
  strictly_sorted l /\ no_nan l /\ lower_bound_slow l (lit32 5 (-1)) = Ok 2%nat.
Proof.
  cbn zeta. split; [|split].
  - apply strictly_sorted_dec. vm_compute. reflexivity.
  - repeat constructor.
  - vm_compute. reflexivity.
Qed.

(** C07: for sizes 2^k-1, the sizes used by the encoders, every pointer formed
    is valid *)
Theorem C07_valid_pointers : forall l v k,
  (length l + 1 = 2 ^ k)%nat -> (1 <= length l)%nat -> sorted l ->
  exists r, lower_bound true l v = Ok r /\ is_lower_bound l v r.
Proof. exact lower_bound_strict_correct. Qed.
Print Assumptions C07_valid_pointers.

(** for other sizes a pointer two or more past the end is formed *)
Theorem C07_other_sizes_refuted : exists l v,
  (2 <= length l)%nat /\ sorted l /\ is_finite v = true /\ lower_bound true l v = UB.
Proof.
  exists ex_dict, (lit32 7 0). split; [cbn; lia|]. split; [exact ex_dict_sorted|].
  split; vm_compute; reflexivity.
Qed.
Print Assumptions C07_other_sizes_refuted.

Example C07_example :
  lower_bound true (firstn 3 ex_dict) (lit32 7 0) = Ok 3%nat.
Proof. vm_compute. reflexivity. Qed.
