(** Specification vocabulary for dscompress. *)
From Verif Require Import Base Floats Dscompress.

(** ** Regular tables *)

(** two rows belong to the same time block *)
Definition same_key (a b : ms_row) : Prop :=
  Beqb (time b) (time a) = true /\ field b = field a /\ ddid b = ddid a.

Definition baseline (r : ms_row) : Z * Z := (ant1 r, ant2 r).

(** neighbouring elements are related *)
Definition neighbours {A} (R : A -> A -> Prop) (l : list A) : Prop :=
  forall p a b q, l = p ++ a :: b :: q -> R a b.

(** the last row of one block and the first of the next are not the same block *)
Definition different (b c : list ms_row) : Prop :=
  forall p x y q, b = p ++ [x] -> c = y :: q -> ~ same_key x y.

(** [rows] consists of these time blocks, which all list the same baselines *)
Definition regular_blocks (rows : list ms_row) (blocks : list (list ms_row)) : Prop :=
  rows = List.concat blocks /\ blocks <> [] /\
  Forall (fun b => b <> [] /\ neighbours same_key b) blocks /\
  neighbours different blocks /\
  exists bl, Forall (fun b => map baseline b = bl) blocks.

Definition regular (rows : list ms_row) : Prop := exists blocks, regular_blocks rows blocks.

(** ** Command line *)
Inductive opt :=
| OBits (v : string) | OWeightBits (v : string) | OReorder | OGaussian | OUniform | OStudent
| OTrunc (v : string) | OColumn (v : string) | ORF | OAF | ORow | OStatic.

(** how an option is written *)
Definition written (o : opt) : list string :=
  match o with
  | OBits v => ["-data-bit-rate"; v] | OWeightBits v => ["-weight-bit-rate"; v] | OReorder => ["-reorder"]
  | OGaussian => ["-gaussian"] | OUniform => ["-uniform"] | OStudent => ["-studentt"]
  | OTrunc v => ["-truncgaus"; v] | OColumn v => ["-column"; v]
  | ORF => ["-rfnormalization"] | OAF => ["-afnormalization"] | ORow => ["-rownormalization"] | OStatic => ["-static-seed"]
  end%string.

(** an option with a value, of which the value is missing *)
Definition cut_off (a : string) : Prop := In a ["-data-bit-rate"; "-weight-bit-rate"; "-truncgaus"; "-column"]%string.

Definition known (a : string) : Prop :=
  In a ["-data-bit-rate"; "-weight-bit-rate"; "-truncgaus"; "-column"; "-reorder"; "-gaussian"; "-uniform"; "-studentt";
        "-rfnormalization"; "-afnormalization"; "-rownormalization"; "-static-seed"]%string.

(** an argument that starts with a dash *)
Definition dashed (a : string) : Prop := exists p, a = String "-" p.

(** the last option for which [f] gives a value decides *)
Definition latest {X} (f : opt -> option X) (d : X) (l : list opt) : X :=
  fold_left (fun x o => match f o with Some y => y | None => x end) l d.

(** what the user asked for *)
Definition settings (atoi : string -> Z) (atof : string -> f64) (l : list opt) (o : options) : Prop :=
  o_bits o = latest (fun x => match x with OBits v => Some (atoi v mod 2 ^ 32)%Z | _ => None end) 8%Z l /\
  o_weight_bits o = latest (fun x => match x with OWeightBits v => Some (atoi v mod 2 ^ 32)%Z | _ => None end) 12%Z l /\
  o_distribution o = latest (fun x => match x with OGaussian => Some Gaussian | OUniform => Some Uniform
    | OStudent => Some StudentsT | OTrunc _ => Some TruncatedGaussian | _ => None end) TruncatedGaussian l /\
  o_normalization o = latest (fun x => match x with ORF => Some RF | OAF => Some AF | ORow => Some Row | _ => None end) AF l /\
  o_truncation o = latest (fun x => match x with OTrunc v => Some (atof v) | _ => None end) (dy 5 (-1)) l /\
  (o_reorder o = true <-> In OReorder l) /\ (o_static o = true <-> In OStatic l) /\
  let asked := flat_map (fun x => match x with OColumn v => [v] | _ => [] end) l in
  o_columns o = match asked with [] => ["DATA"%string] | _ => asked end.
