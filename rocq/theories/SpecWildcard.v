(** What the wildcard index is for, independently of how it is stored. *)
From Coq Require Import List ZArith Bool Sorted.
From Coq Require Import Strings.Byte String.
From Verif Require Import Base Value Codec Wildcard SpecIndex.
Import ListNotations.
Open Scope Z_scope.

Definition substring (q v : bytes) : Prop := exists a b, v = a ++ q ++ b.

(** Positions of the records of an input, in the order of the iteration. *)
Definition iter_positions (its : list (res rec)) : list Z :=
  flat_map (fun it => match it with Ok r => [r_pos r] | _ => [] end) its.

Section Spec.
(** Case folding applied to both the values and the queries. *)
Variable fold : bytes -> bytes.

(** The record has, in property [fst f], a string containing [snd f]. *)
Definition row_matches (r : rec) (f : bytes * bytes) : Prop :=
  exists v, r_get r (fst f) = Ok (VString v) /\ substring (fold (snd f)) (fold v).

(** [l] holds, once each and in ascending order, the positions of the records
    which match all the filters. *)
Definition exact_answer (its : list (res rec)) (filters : list (bytes * bytes)) (l : list Z) : Prop :=
  StronglySorted Z.lt l /\
  forall pos, In pos l <-> exists r, In (Ok r) its /\ r_pos r = pos /\ Forall (row_matches r) filters.

(** How a wildcard index searches: strings are asked for, and found in the strings
    that contain them; the empty string is found nowhere. *)
Definition containing : search :=
  mkSearch (fun q => exists s, q = VString s)
    (property_is (fun x q => exists v s, x = VString v /\ q = VString s /\ fold s <> [] /\ substring (fold s) (fold v))).
End Spec.

(** A crash: the file holds the result of some of the first writes of the log,
    the last of which may have been cut short. *)
Fixpoint apply_writes (write : bytes -> Z -> bytes -> bytes) (f : bytes) (w : list (Z * bytes)) : bytes :=
  match w with
  | [] => f
  | (o, bs) :: w' => apply_writes write (write f o bs) w'
  end.
Definition crash_file (write : bytes -> Z -> bytes -> bytes) (w : list (Z * bytes)) (f : bytes) : Prop :=
  exists pre post torn, w = pre ++ post /\
    (torn = [] \/ exists o bs k rest, post = (o, bs) :: rest /\ torn = [(o, firstn k bs)]) /\
    f = apply_writes write [] (pre ++ torn).

(** What can be indexed: the size and time of the input are known int64, every
    record is readable, has an int64 position and a string in every property. *)
Definition indexable (props : list bytes) (inp : input) : Prop :=
  (exists z, in_size inp = Ok z /\ in_i64 z) /\ (exists z, in_mtime inp = Ok z /\ in_i64 z) /\
  Forall (fun it => exists r, it = Ok r /\ in_i64 (r_pos r) /\
  Forall (fun p => exists v, r_get r p = Ok (VString v)) props) (in_iter inp).

(** The bytes of a file which carry the identity of an index: magic, version
    (big endian), modification time, size, ignoreCase, completed, number of
    properties. *)
Definition header_matches (cfg : wconfig) (inp : input) (file : bytes) : Prop :=
  47 <= zlen file /\
  slice file 0 19 = lit "RODB/INDEX/WILDCARD" /\
  get_be (slice file 19 2) = 1 /\
  in_mtime inp = Ok (get_i64 (slice file 21 8)) /\
  in_size inp = Ok (get_i64 (slice file 29 8)) /\
  (wc_ic cfg = true <-> nth 37 file x00 <> x00) /\
  nth 38 file x00 <> x00 /\
  get_i64 (slice file 39 8) = zlen (wc_props cfg).
