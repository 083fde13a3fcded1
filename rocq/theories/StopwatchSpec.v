(** What a stop watch should report. *)
From Coq Require Import String.
From Verif Require Import Base Stopwatch.
Local Open Scope Z_scope.

(** The buttons are pressed in the order of time, and not after [t] *)
Fixpoint ordered (h : list press) (t : Z) : Prop :=
  match h with
  | [] => True
  | p :: h' => time_of p <= t /\ (forall q, In q h' -> time_of p <= time_of q) /\ ordered h' t
  end.

(** The last press not later than [u] *)
Definition last_press (h : list press) (u : Z) : option press :=
  last (map Some (filter (fun p => time_of p <=? u) h)) None.

(** The microsecond that begins at [u] is measured: the last press before it
    started the watch, and it was not reset after it *)
Definition measured (h : list press) (u : Z) : bool :=
  match last_press h u with Some (Start _) => true | _ => false end &&
  forallb (fun p => match p with Reset t => t <=? u | _ => true end) h.

(** The number of integers from [a] up to [b] for which [f] holds *)
Definition ticks (f : Z -> bool) (a b : Z) : Z :=
  Z.of_nat (length (filter f (map (fun k => a + Z.of_nat k) (seq 0 (Z.to_nat (b - a)))))).

(** How a text is read: every number times its unit, in tenths of
    nanoseconds *)
Definition unit_of (s : string) : option Z :=
  if string_dec s " days" then Some 864000000000000
  else if string_dec s "d" then Some 864000000000000
  else if string_dec s "h" then Some 36000000000000
  else if string_dec s "m" then Some 600000000000
  else if string_dec s " min" then Some 600000000000
  else if string_dec s "s" then Some 10000000000
  else if string_dec s "ms" then Some 10000000
  else if string_dec s "us" then Some 10000
  else if string_dec s "ns" then Some 10
  else None.
Fixpoint meaning (l : list piece) : option Z :=
  match l with
  | [] => Some 0
  | Int n :: Text s :: l' =>
      match unit_of s, meaning l' with Some u, Some r => Some (n * u + r) | _, _ => None end
  | Tenths n :: Text s :: l' =>
      match unit_of s, meaning l' with Some u, Some r => Some (n * (u / 10) + r) | _, _ => None end
  | _ => None
  end.
(** [l] is read as a time at most [e] milliseconds from [ms] milliseconds *)
Definition shows_within (e : Z) (l : list piece) (ms : Z) : Prop :=
  exists v, meaning l = Some v /\ Z.abs (v - ms * 10000000) <= e * 10000000.
