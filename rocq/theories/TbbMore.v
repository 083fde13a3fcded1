(** What [ConvertVector] gives.  Proof file. *)
From Verif Require Import Base TimeBlockBuffer TbbSpec TbbProofs.

Lemma convert_vector {A B} (f : A -> B) nSamp (cs : list (set_call A)) b : Forall (fun c => nSamp <= length (c_data c))%nat cs ->
  run_sets nSamp cs [] = Ok b ->
  NRows (ConvertVector f b) = NRows b /\
  forall r c, last_call cs r = Some c -> exists rw, nth_error (ConvertVector f b) r = Some rw /\
    antenna1 rw = c_a1 c /\ antenna2 rw = c_a2 c /\ visibilities rw = map f (firstn nSamp (c_data c)).
Proof.
  intros F E. destruct (buffer_is_map nSamp cs F) as (b' & E' & H & _). rewrite E in E'. injection E' as <-.
  split; [apply map_length|]. intros r c L. destruct (H r c L) as (G & rw & N & A1 & A2).
  eexists. split; [unfold ConvertVector; rewrite nth_error_map, N; reflexivity|]. cbn. repeat (split; trivial).
  unfold GetData in G. rewrite N in G. injection G as G. now rewrite G.
Qed.
