(** bufio.Reader over an os.File (Go 1.16, from its sources), and
    pkg/util/bufio.go. *)
From Coq Require Import List ZArith Lia Bool String.
From Coq Require Import Strings.Byte.
From Verif Require Import Base Prog.
Import ListNotations.
Open Scope Z_scope.

(** The offset of the file descriptor; the data read but not yet consumed
    ([buf[r:w]]); a pending io.EOF ([err]); the number of reads so far. *)
Record reader := mkReader { f_off : Z; b_buf : bytes; b_eof : bool; b_reads : nat }.

(** How a piece of text ended. *)
Inductive ending := Found | AtEof | BufferFull.

(** [bytes.IndexByte]: before and after the first [c]. *)
Fixpoint cut_byte (c : byte) (s : bytes) : option (bytes * bytes) :=
  match s with
  | [] => None
  | x :: s' =>
    if beqb x c then Some ([], s')
    else match cut_byte c s' with Some (a, b) => Some (x :: a, b) | None => None end
  end.

Section Bufio.
(** The contents of the file, which does not change. *)
Variable file : bytes.
(** [len(buf)], 4096 by default. *)
Variable cap : nat.
(** How many bytes the n-th call of read(2) gives, when there are enough: at least
    one. *)
Variable chunk : nat -> nat.

(** Reader.fill (there is room in the buffer): one read(2); at the end of the file
    io.EOF becomes pending.  Other errors are not modelled. *)
Definition fill (s : reader) : reader :=
  match skipn (Z.to_nat (f_off s)) file with
  | [] => mkReader (f_off s) (b_buf s) true (S (b_reads s))
  | x :: l =>
    let got := firstn (Nat.min (S (chunk (b_reads s))) (cap - List.length (b_buf s))) (x :: l) in
    mkReader (f_off s + zlen got) (b_buf s ++ got) (b_eof s) (S (b_reads s))
  end.

Definition drop (n : nat) (s : reader) : reader := mkReader (f_off s) (skipn n (b_buf s)) (b_eof s) (b_reads s).
(** readErr: the pending error is given once. *)
Definition drop_all (s : reader) : reader := mkReader (f_off s) [] false (b_reads s).

(** Reader.ReadSlice *)
Fixpoint read_slice (fuel : nat) (delim : byte) : prog reader (res (bytes * ending)) :=
  match fuel with
  | O => Ret NoFuel
  | S fuel' =>
    plet s := get in
    match cut_byte delim (b_buf s) with
    | Some (a, _) => plet _ := modify (drop (S (List.length a))) in Ret (Ok (a ++ [delim], Found))
    | None =>
      if b_eof s then plet _ := modify drop_all in Ret (Ok (b_buf s, AtEof))
      else if (cap <=? List.length (b_buf s))%nat then plet _ := modify (drop (List.length (b_buf s))) in Ret (Ok (b_buf s, BufferFull))
      else plet _ := modify fill in read_slice fuel' delim
    end
  end.

(** Reader.ReadByte; [None] is io.EOF. *)
Fixpoint read_byte (fuel : nat) : prog reader (res (option byte)) :=
  match fuel with
  | O => Ret NoFuel
  | S fuel' =>
    plet s := get in
    match b_buf s with
    | x :: _ => plet _ := modify (drop 1) in Ret (Ok (Some x))
    | [] =>
      if b_eof s then plet _ := modify drop_all in Ret (Ok None)
      else plet _ := modify fill in read_byte fuel'
    end
  end.

(** pkg/util/bufio.go:8-20 *)
Definition buffered_offset (s : reader) : Z := f_off s - zlen (b_buf s).

(** pkg/util/bufio.go:22-35.  lseek(2) fails for negative offsets; buffer.Reset
    forgets the data and the pending error. *)
Definition set_buffered_offset (offset : Z) : prog reader (res unit) :=
  if offset <? 0 then plet _ := get in Ret (Err EIo)
  else
    plet _ := modify (fun s => mkReader offset (b_buf s) (b_eof s) (b_reads s)) in
    plet _ := modify (fun s => mkReader (f_off s) [] false (b_reads s)) in
    Ret (Ok tt).

(** *** Sequences of operations *)
Inductive rop := OpByte | OpSlice (delim : byte) | OpOffset | OpSet (offset : Z).
Inductive rout := OutByte (r : res (option byte)) | OutSlice (r : res (bytes * ending)) | OutOffset (z : Z) | OutSet (r : res unit).

Definition run_op (o : rop) (s : reader) : rout * reader :=
  match o with
  | OpByte => let '(r, s') := exec (read_byte (S (S cap))) s in (OutByte r, s')
  | OpSlice d => let '(r, s') := exec (read_slice (S (S cap)) d) s in (OutSlice r, s')
  | OpOffset => (OutOffset (buffered_offset s), s)
  | OpSet p => let '(r, s') := exec (set_buffered_offset p) s in (OutSet r, s')
  end.
Fixpoint run_ops (os : list rop) (s : reader) : list rout * reader :=
  match os with
  | [] => ([], s)
  | o :: os' => let '(r, s1) := run_op o s in let '(rs, s2) := run_ops os' s1 in (r :: rs, s2)
  end.

(** bufio.NewReader on a file just opened. *)
Definition new_reader : reader := mkReader 0 [] false 0.
End Bufio.
