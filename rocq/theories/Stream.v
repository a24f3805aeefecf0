(** pkg/index/wildcard/stream.go: the index file with its write-back buffer. *)
From Coq Require Import List ZArith Lia Bool String.
From Coq Require Import Strings.Byte.
From Verif Require Import Base.
Import ListNotations.
Open Scope Z_scope.

(** ** The operating system file *)

(** [os.File.ReadAt(buf, off)] with [len(buf) = n]: a negative offset is an
    error, a short read returns io.EOF, an empty read always succeeds. *)
Definition file_read_at (f : bytes) (off n : Z) : res bytes :=
  if n <=? 0 then Ok []
  else if off <? 0 then Err EIo
  else if zlen f <? off + n then Err EEof
  else Ok (slice f off n).

(** [os.File.WriteAt(bs, off)] on a POSIX file: gaps are filled with zeros, an
    empty write changes nothing.  Simplification: a write never fails for lack
    of space (a failing write stops the indexing like a crash would). *)
Definition file_write_at (f : bytes) (off : Z) (bs : bytes) : bytes :=
  match bs with
  | [] => f
  | _ :: _ =>
    let pad := repeat Byte.x00 (Z.to_nat (off - zlen f)) in
    overwrite (f ++ pad) off bs
  end.

(** pkg/index/wildcard/stream.go:9 *)
Definition STREAM_BUFFER_SIZE : Z := 10000.

(** pkg/index/wildcard/stream.go:11-18.  [st_wlog] is ghost state: the
    [WriteAt] calls issued so far, oldest first (used for crash points).
    [readerOffset] is never used by the code and left out. *)
Record stream := mkStream {
  st_file : bytes;
  st_size : Z;
  st_boff : Z;
  st_bmax : Z;
  st_buf  : bytes;
  st_wlog : list (Z * bytes);
}.

(** pkg/index/wildcard/stream.go:20-31 *)
Definition new_stream (file : bytes) (streamSize : Z) : stream :=
  mkStream file streamSize streamSize STREAM_BUFFER_SIZE [] [].

(** Code that runs on a stream: the state is kept on error, so that the state
    after a failed call is the one left behind by the Go code. *)
Definition M (A : Type) := stream -> res A * stream.

Definition ret {A} (a : A) : M A := fun s => (Ok a, s).
Definition fail {A} (e : err) : M A := fun s => (Err e, s).
Definition panic {A} : M A := fun s => (Panic, s).
Definition nofuel {A} : M A := fun s => (NoFuel, s).
Definition mbind {A B} (f : M A) (g : A -> M B) : M B := fun s =>
  match f s with
  | (Ok a, s') => g a s'
  | (Err e, s') => (Err e, s')
  | (Panic, s') => (Panic, s')
  | (NoFuel, s') => (NoFuel, s')
  end.
Notation "'do' x <- e1 ; e2" := (mbind e1 (fun x => e2))
  (at level 200, x pattern, e1 at level 100, e2 at level 200).

(** One [WriteAt] call (lines 39 and 129): errors on a negative offset,
    otherwise updates the file and the ghost log. *)
Definition do_write (off : Z) (bs : bytes) : M unit := fun s =>
  if off <? 0 then (Err EIo, s)
  else (Ok tt, mkStream (file_write_at (st_file s) off bs) (st_size s) (st_boff s)
                        (st_bmax s) (st_buf s) (st_wlog s ++ [(off, bs)])).

(** pkg/index/wildcard/stream.go:34-51 *)
Definition stream_flush : M unit := fun s =>
  if zlen (st_buf s) =? 0 then (Ok tt, s)
  else (do _ <- do_write (st_boff s) (st_buf s);
        fun s' => (Ok tt, mkStream (st_file s') (st_size s') (st_size s') (st_bmax s') []
                                   (st_wlog s'))) s.

(** Largest capacity [make] accepts on linux/amd64 (2^48); larger or negative
    requests are run-time panics. *)
Definition max_alloc : Z := 281474976710656.

(** pkg/index/wildcard/stream.go:86-107: the part served by the buffer.
    [part] is what was already taken from the file ([bytes]), [n] is the total
    expected count. *)
Definition get_from_buffer (s : stream) (part : bytes) (cur rem n : Z) : res bytes :=
  let start := cur - st_boff s in
  let end_ := wrap64 (start + rem) in
  if zlen (st_buf s) <? end_ then Err (EMsg "short buffer")
  else if (start <? 0) || (end_ <? start) then Panic
  else
    let sl := slice (st_buf s) start (end_ - start) in
    if 0 <? zlen part then
      let out := part ++ sl in
      if zlen out =? n then Ok out else Err (EMsg "length mismatch")
    else Ok sl.

(** pkg/index/wildcard/stream.go:53-108 *)
Definition stream_get (off n : Z) : M bytes := fun s =>
  (if (n <? 0) || (max_alloc <? n) then Panic
   else if off <? st_boff s then
     let k := if st_boff s <? wrap64 (off + n) then st_boff s - off else n in
     match file_read_at (st_file s) off k with
     | Ok part => if k <? n then get_from_buffer s part (st_boff s) (n - k) n else Ok part
     | Err e => Err e
     | Panic => Panic
     | NoFuel => NoFuel
     end
   else get_from_buffer s [] off n n, s).

(** pkg/index/wildcard/stream.go:144-154: overlay of the buffer, then append.
    [start > len(buffer)] makes line 152 slice with a negative index: panic. *)
Definition buffer_overlay (buf : bytes) (start : Z) (rem : bytes) : res bytes :=
  let room := zlen buf - start in
  let overlaid :=
    firstn (Z.to_nat start) buf ++ firstn (Z.to_nat room) rem
      ++ skipn (Z.to_nat start + List.length rem) buf in
  let remainingCount := zlen rem - room in
  if 0 <? remainingCount then
    if zlen rem <? remainingCount then Panic
    else Ok (overlaid ++ skipn (Z.to_nat (zlen rem - remainingCount)) rem)
  else Ok overlaid.

Definition set_buf (b : bytes) : M unit := fun s =>
  (Ok tt, mkStream (st_file s) (st_size s) (st_boff s) (st_bmax s) b (st_wlog s)).
Definition set_size (z : Z) : M unit := fun s =>
  (Ok tt, mkStream (st_file s) z (st_boff s) (st_bmax s) (st_buf s) (st_wlog s)).
Definition lift {A} (r : res A) : M A := fun s => (r, s).

(** pkg/index/wildcard/stream.go:120-154: the bytes below [bufferOffset] go
    directly to the file, the rest into the buffer. *)
Definition replace_parts (off : Z) (bs : bytes) : M unit := fun s =>
  (if off <? st_boff s then
     let k := if st_boff s <? off + zlen bs then st_boff s - off else zlen bs in
     do _ <- do_write off (firstn (Z.to_nat k) bs);
     if k <? zlen bs then
       do b <- lift (buffer_overlay (st_buf s) 0 (skipn (Z.to_nat k) bs));
       set_buf b
     else ret tt
   else
     do b <- lift (buffer_overlay (st_buf s) (off - st_boff s) bs);
     set_buf b) s.

(** pkg/index/wildcard/stream.go:156-159.  Simplification: [offset + len(bytes)]
    does not overflow int64 (it would need a 2^63-byte file). *)
Definition grow_size (endOffset : Z) : M unit := fun s =>
  if st_size s <? endOffset then set_size endOffset s else (Ok tt, s).

(** pkg/index/wildcard/stream.go:161-165 *)
Definition flush_if_full : M unit := fun s =>
  if st_bmax s <? zlen (st_buf s) then stream_flush s else (Ok tt, s).

(** pkg/index/wildcard/stream.go:119-168 *)
Definition stream_replace (off : Z) (bs : bytes) : M unit :=
  do _ <- replace_parts off bs;
  do _ <- grow_size (off + zlen bs);
  flush_if_full.

(** pkg/index/wildcard/stream.go:110-117 *)
Definition stream_add (bs : bytes) : M Z := fun s =>
  let off := st_size s in
  (do _ <- stream_replace off bs; ret off) s.

(** pkg/index/wildcard/stream.go:173-186: flush, then everything from [off].
    The returned reader is modelled by the bytes it will deliver. *)
Definition stream_reader_from (off : Z) : M bytes := fun s =>
  (do _ <- stream_flush; fun s' =>
     if off <? 0 then (Err EIo, s') else (Ok (skipn (Z.to_nat off) (st_file s')), s')) s.
