(** Model of the specification record of the storage manager:
    [dataManagerSpec] and [setFromSpec] (/repo/dyscostman.cc:71-152). *)
From Coq Require Import String.
From Verif Require Import Base.
Local Open Scope string_scope.
Local Open Scope N_scope.

(** dyscodistribution.h:5-10, dysconormalization.h:5 *)
Inductive dist := Gaussian | Uniform | StudentsT | TruncatedGaussian.
Inductive norm := kAF | kRF | kRow.

(** the settings, dyscostman.h:395-401; doubles as bit patterns *)
Record settings := Settings {
  s_dataBits : N; s_weightBits : N; s_dist : dist; s_norm : norm; s_nu : N; s_truncation : N }.

(** casacore::Record, as a list of named values.  Simplification: only the value
    kinds used here. *)
Inductive value := VUInt (n : N) | VString (s : string) | VDouble (d : N).
Definition record := list (string * value).

Fixpoint field (r : record) (k : string) : option value :=
  match r with
  | [] => None
  | (k', v) :: t => if String.eqb k k' then Some v else field t k
  end.
(** casacore::Record::asInt assigned to an [unsigned]; a missing field throws.
    Simplification: the conversion of values above 2^31-1 wraps and so gives the
    value back. *)
Definition asUInt (r : record) (k : string) : res N := match field r k with Some (VUInt n) => Ok (n mod 2 ^ 32) | _ => Throw end.
Definition asString (r : record) (k : string) : res string := match field r k with Some (VString s) => Ok s | _ => Throw end.
Definition asDouble (r : record) (k : string) : res N := match field r k with Some (VDouble d) => Ok d | _ => Throw end.

(** dyscostman.cc:71-108; without the field dataBitCount nothing is changed *)
Definition setFromSpec (s : settings) (r : record) : res settings :=
  match field r "dataBitCount" with
  | None => Ok s
  | Some _ =>
    do d <- asUInt r "dataBitCount";
    if d =? 0 then Throw else
    do w <- asUInt r "weightBitCount";
    if w =? 0 then Throw else
    do ds <- asString r "distribution";
    do di <- (if String.eqb ds "Uniform" then Ok Uniform
              else if String.eqb ds "Gaussian" then Ok Gaussian
              else if String.eqb ds "StudentT" then Ok StudentsT
              else if String.eqb ds "TruncatedGaussian" then Ok TruncatedGaussian
              else Throw);
    do ns <- asString r "normalization";
    do no <- (if String.eqb ns "RF" then Ok kRF
              else if String.eqb ns "AF" then Ok kAF
              else if String.eqb ns "Row" then Ok kRow
              else Throw);
    do nu <- (match field r "studentTNu" with Some _ => asDouble r "studentTNu" | None => Ok 0 end);
    do tr <- asDouble r "distributionTruncation";
    Ok (Settings d w di no nu tr)
  end.

(** dyscostman.cc:119-152 *)
Definition dataManagerSpec (s : settings) : record :=
  [("dataBitCount", VUInt (s_dataBits s));
   ("weightBitCount", VUInt (s_weightBits s));
   ("distribution", VString (match s_dist s with
      Gaussian => "Gaussian" | Uniform => "Uniform" | StudentsT => "StudentsT" | TruncatedGaussian => "TruncatedGaussian" end));
   ("normalization", VString (match s_norm s with kAF => "AF" | kRF => "RF" | kRow => "Row" end));
   ("studentTNu", VDouble (s_nu s));
   ("distributionTruncation", VDouble (s_truncation s))].
