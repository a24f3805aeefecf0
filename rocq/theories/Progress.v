(** The progress shown while an index is created. *)
From Coq Require Import List ZArith Bool.
From Coq Require Import Floats.SpecFloat.
From Verif Require Import Base FloatText SpecFloatText.
Import ListNotations.
Open Scope Z_scope.

(** float64(z), x / y and x * y for finite float64 (and y not zero): the float64 nearest to the exact
    result, as the Go specification says by reference to IEEE 754. *)
Definition of_int (z : Z) : res spec_float := nearest (z <? 0) (Z.abs z) 1.
Definition fdiv (x y : spec_float) : res spec_float := nearest (xorb (sign x) (sign y)) (Z.abs (units x)) (Z.abs (units y)).
Definition fmul (x y : spec_float) : res spec_float := nearest (xorb (sign x) (sign y)) (Z.abs (units x * units y)) (2 ^ 1074 * 2 ^ 1074).
(** int(math.Floor(x)), when it is an int64. *)
Definition floor_int (x : spec_float) : Z := units x / 2 ^ 1074.

(** pkg/util/progress.go:30-31, the number before the percent sign. *)
Definition percent (position total : Z) : res Z :=
  rlet p := of_int position in
  rlet t := of_int total in
  rlet q := fdiv p t in
  rlet h := of_int 100 in
  rlet x := fmul q h in
  Ok (floor_int x).

(** The variables of the closure; times are in nanoseconds. *)
Record tracker := mkTracker { tr_total : Z; tr_next : Z }.

(** pkg/util/progress.go:14-25; when Size fails its first result is 0 (csv.go:113, json.go:93, xml.go). *)
Definition track_progress (size : res Z) (now : Z) : tracker :=
  mkTracker (match size with Ok n => n | _ => 0 end) now.

(** pkg/util/progress.go:27-39: the message, if there is one. *)
Definition update_progress (t : tracker) (now position : Z) : tracker * option (res Z * Z) :=
  if negb (tr_total t =? 0) && (tr_next t <? now)
  then (mkTracker (tr_total t) (now + 1000000000), Some (percent position (tr_total t), position))
  else (t, None).

(** The messages of a run: when, how much, and the offset. *)
Fixpoint messages (t : tracker) (calls : list (Z * Z)) : list (Z * (res Z * Z)) :=
  match calls with
  | [] => []
  | (now, position) :: calls' =>
    let '(t1, m) := update_progress t now position in
    match m with Some x => (now, x) :: messages t1 calls' | None => messages t1 calls' end
  end.
