(** Specification vocabulary: rows of a stored column are read and overwritten, also going
    back to earlier blocks.  The specification is a column without threads: one block is
    open; when another one is opened, its rows are encoded. *)
From Verif Require Import Base TimeBlockBuffer Column ColumnSpec.
Local Open Scope N_scope.

(** a call on the column: a row is put, or read *)
Inductive rowcall (A : Type) := CPut (row : N) (d : list A) | CGet (row : N).
Arguments CPut {A}. Arguments CGet {A}.
Definition row_of {A} (c : rowcall A) : N := match c with CPut r _ | CGet r => r end.

Section calls.
Context {A : Type} (rp : N).

(** the block of the last call; the latest call comes first *)
Definition open_block (l : list (rowcall A)) : option N :=
  match l with [] => None | c :: _ => Some (row_of c / rp) end.

(** a row of block [b] was put, and since then the block was not opened by reading a row of it *)
Fixpoint unread (l : list (rowcall A)) (b : N) : Prop :=
  match l with
  | [] => False
  | CPut r _ :: l => r / rp = b \/ unread l b
  | CGet r :: l => ~ (r / rp = b /\ open_block l <> Some b) /\ unread l b
  end.

(** Row [r] may be put: its block is that of the last call, or nothing was put in the block
    since it was last opened by reading. *)
Definition may_put (l : list (rowcall A)) (r : N) : Prop := open_block l = Some (r / rp) \/ ~ unread l (r / rp).

(** no row of block [b] was put *)
Definition never_put (l : list (rowcall A)) (b : N) : Prop := forall r d, In (CPut r d) l -> r / rp <> b.
End calls.

Section rewrite.
Context {e : env} (rp : N) (na : nat).
Notation values := (list (list (data e))).

(** what the file holds, or will hold, of a block: these bytes, or an encoding of these rows *)
Inductive content := Bytes (y : bytes e) | Coded (v : values).

Record column := Col {
  blocks : N -> option content;
  at_block : option N;              (** the block that is open *)
  rows : values;                    (** its rows *)
  dirty : bool;                     (** whether a row of it was put *)
  given : list (N * answer (data e)) }.   (** the rows read, newest first *)

(** the rows [v] of block [b], with the antennas of the table *)
Definition table_rows (b : N) (x : tbb (data e)) (v : values) : Prop :=
  length x = length v /\
  forall k row, nth_error x k = Some row -> (antenna1 row, antenna2 row) = ants e (b * rp + N.of_nat k) /\ nth_error v k = Some (visibilities row).

(** bytes that encode the rows [v] of block [b] *)
Definition codes (b : N) (v : values) (y : bytes e) : Prop := exists x, table_rows b x v /\ enc e rp na x y.

(** the open block is left *)
Definition put_away (c : column) : N -> option content :=
  match at_block c, dirty c with
  | Some b, true => fun b' => if b' =? b then Some (Coded (rows c)) else blocks c b'
  | _, _ => blocks c
  end.

(** block [b] is opened *)
Inductive enters (c : column) (b : N) : column -> Prop :=
| en_here : at_block c = Some b -> enters c b c
| en_bytes y : at_block c <> Some b -> put_away c b = Some (Bytes y) -> enters c b (Col (put_away c) (Some b) (dec e rp na b y) false (given c))
| en_coded v y : at_block c <> Some b -> put_away c b = Some (Coded v) -> codes b v y ->
    enters c b (Col (fun b' => if b' =? b then Some (Bytes y) else put_away c b') (Some b) (dec e rp na b y) false (given c)).

Fixpoint set_nth {A} (l : list A) (k : nat) (a : A) : list A :=
  match l, k with
  | [], _ => []
  | _ :: l, O => a :: l
  | b :: l, S k => b :: set_nth l k a
  end.

(** one call *)
Inductive does (c : column) : rowcall (data e) -> column -> Prop :=
| do_put row d c1 : enters c (row / rp) c1 ->
    does c (CPut row d) (Col (blocks c1) (at_block c1) (set_nth (rows c1) (N.to_nat (row mod rp)) (firstn (nSamp e) d)) true (given c1))
| do_get row v c1 : enters c (row / rp) c1 -> nth_error (rows c1) (N.to_nat (row mod rp)) = Some v ->
    does c (CGet row) (Col (blocks c1) (at_block c1) (rows c1) (dirty c1) ((row, AVals v) :: given c1)).

(** the calls [l], the latest first, on a column of which the file holds [f] *)
Inductive runs (f : N -> option (bytes e)) : list (rowcall (data e)) -> column -> Prop :=
| rn_open : runs f [] (Col (fun b => option_map Bytes (f b)) None [] false [])
| rn_call l c a c' : runs f l c -> does c a c' -> runs f (a :: l) c'.

(** what the file holds of block [b] when all rows were encoded *)
Definition agrees (b : N) (h : option content) (y : option (bytes e)) : Prop :=
  match h with
  | Some (Bytes y') => y = Some y'
  | Some (Coded v) => exists y', y = Some y' /\ codes b v y'
  | None => y = None
  end.
End rewrite.
Arguments content e : clear implicits. Arguments column e : clear implicits.

(** An opened column of which rows, all satisfying [ok], are read in any order and written
    (with values satisfying [okd]) when [may_put] allows; then it may be closed. *)
Inductive rewriting {e : env} (f : N -> option (bytes e)) (nb rp : N) (na : nat) (ok : N -> Prop) (okd : list (data e) -> Prop) :
  list (rowcall (data e)) -> state e -> Prop :=
| rw_open : rewriting f nb rp na ok okd [] (opened e f nb rp na)
| rw_put l s row d : rewriting f nb rp na ok okd l s -> status s = Running -> code s = [] -> closed s = false -> row < 2 ^ 32 -> ok row ->
    may_put rp l row -> okd d -> rewriting f nb rp na ok okd (CPut row d :: l) (set_code s (call_code (Put row d)))
| rw_get l s row : rewriting f nb rp na ok okd l s -> status s = Running -> code s = [] -> closed s = false -> row < 2 ^ 32 -> ok row ->
    rewriting f nb rp na ok okd (CGet row :: l) (set_code s (call_code (Get row)))
| rw_close l s : rewriting f nb rp na ok okd l s -> status s = Running -> code s = [] -> closed s = false ->
    rewriting f nb rp na ok okd l (set_code s (call_code Shutdown))
| rw_step l s s' : rewriting f nb rp na ok okd l s -> step s s' -> code s <> [] \/ code s' = [] -> rewriting f nb rp na ok okd l s'.
