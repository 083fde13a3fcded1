(** Copying a table that dscompress wrote.  Proof file. *)
From Coq Require Import Reals Lia String.
From Flocq Require Import Core.
From Verif Require Import Base BaseLemmas Floats TimeBlockBuffer BytePacker File StMan StManSpec StochasticEncoder TimeBlockEncoders Block Column ColumnSpec StoredColumn System SystemSpec SystemCols SystemInv
  Production ProductionSpec ProductionProofs ProductionTool Copy CopySpec.
From Verif Require Dscompress.
Local Open Scope N_scope.

Lemma copy_prepared G m0 m' cfg : same_options m0 m' -> Forall2 same_column (columns m0) (columns m') -> all_prepared G m0 cfg -> all_prepared G m' cfg.
Proof.
  intros So Sc Hp i col Hc. destruct (shape_nth _ _ Sc i col Hc) as (c & Hc0 & (Q1 & Q2 & Q3 & _)). apply (prepared_same G m0); trivial. apply (prepared_shape G m0 c); trivial. now apply Hp.
Qed.

Section tool.
Context (Phi Tc dn : R -> R) (G : gsl) (o : Dscompress.options) (p n : nat) (rows : list Dscompress.ms_row) (cols : Dscompress.columns)
  (flags : list (list bool)) (weights : list (list f32)).
Hypotheses (Ho : options_ok Phi Tc dn G o) (Hc : compressible o p n rows cols flags weights).
Context (cols' : Dscompress.columns) (m : stman) (e : encoder) (Hr : tool_ready G o p n rows cols flags cols' m e).

Lemma tool_known : known_settings m /\ (distribution m = 2 <-> Dscompress.o_distribution o = Dscompress.StudentsT).
Proof.
  pose proof (tool_is_made Phi Tc dn G o p n rows cols flags weights Ho Hc cols' m e Hr) as Hm. destruct (md_options _ _ _ _ _ Hm) as (_ & _ & _ & E4 & E5 & _).
  unfold known_settings. rewrite E4, E5. split.
  - split; [cbn; now destruct (Dscompress.o_distribution o)|]. split; [cbn; now destruct (Dscompress.o_normalization o)|].
    rewrite (md_columns _ _ _ _ _ Hm). apply Forall_forall. intros c Ic. apply in_map_iff in Ic as (x & <- & _). unfold tool_column, new_column, set_bits. cbn [co_kind].
    destruct (String.eqb x "WEIGHT_SPECTRUM"); [now left|]. right. unfold data_kind. now rewrite E5.
  - cbn. destruct (Dscompress.o_distribution o); cbn; split; congruence.
Qed.
End tool.
