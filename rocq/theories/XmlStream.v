(** XML inputs: pkg/input/xml.go, on a model of encoding/xml's Decoder (not strict,
    xml.go:18-22) and of xmlquery's StreamParser (github.com/antchfx/xmlquery 1.3.6).

    Simplified: a file is a list of tokens with their lengths in bytes, so that only
    positions between two tokens are read from (others are the error [unmodelled]);
    tokens are well-formed; no namespaces, no entities.  The iterators of xml.go give
    positions between two tokens only, because a record ends with the end of a tag.
    The XPath of the records is a path of child and descendant steps. *)
From Coq Require Import List ZArith Lia Bool String.
From Coq Require Import Strings.Byte.
From Verif Require Import Base Prog.
Import ListNotations.
Open Scope nat_scope.

(** *** Trees and tokens *)

(** xmlquery.Node: ElementNode, TextNode or CharDataNode, CommentNode, DeclarationNode. *)
Inductive xtree :=
| XElem (name : bytes) (attrs : list (bytes * bytes)) (kids : list xtree)
| XText (s : bytes)
| XComment (s : bytes)
| XDecl (target : bytes).

(** [RVoid] is <a/>; [recode] tells a declaration of an encoding other than UTF-8. *)
Inductive rawtok :=
| RStart (name : bytes) (attrs : list (bytes * bytes))
| RVoid (name : bytes) (attrs : list (bytes * bytes))
| REnd (name : bytes)
| RText (s : bytes)
| RComment (s : bytes)
| RProc (target : bytes) (recode : bool)
| RDirective (s : bytes).

Definition xfile := list (rawtok * nat).

(** The byte offset of the [i]-th token. *)
Definition xoffset (file : xfile) (i : nat) : Z := Z.of_nat (list_sum (map snd (firstn i file))).
(** The token at a byte offset. *)
Fixpoint xtoken_at (file : xfile) (z : Z) : option nat :=
  if (z =? 0)%Z then Some O
  else match file with
       | [] => None
       | (_, n) :: file' => option_map S (xtoken_at file' (z - Z.of_nat n)%Z)
       end.

(** *** encoding/xml: Decoder *)

(** [x_pos]: the token the shared buffered reader stands before; [x_ahead]: what a charset reader
    has taken from it in advance; [x_stack]: the open elements; [x_close]: needClose and toClose;
    [x_err]: the error which makes every later call fail. *)
Record xdec := mkXdec { x_pos : nat; x_ahead : option (list rawtok); x_stack : list bytes; x_close : option bytes; x_err : option err }.

Definition set_stack (d : xdec) (s : list bytes) : xdec := mkXdec (x_pos d) (x_ahead d) s (x_close d) (x_err d).
Definition set_close (d : xdec) (c : option bytes) : xdec := mkXdec (x_pos d) (x_ahead d) (x_stack d) c (x_err d).
Definition set_err (d : xdec) (e : err) : xdec := mkXdec (x_pos d) (x_ahead d) (x_stack d) (x_close d) (Some e).

Section Xml.
Variable file : xfile.
(** How many tokens (less one) a charset reader takes at once. *)
Variable chunk : nat.

(** d.r: the next token of the reader. *)
Definition take_raw (d : xdec) : xdec * option rawtok :=
  match x_ahead d with
  | None =>
    match nth_error file (x_pos d) with
    | Some (t, _) => (mkXdec (S (x_pos d)) None (x_stack d) (x_close d) (x_err d), Some t)
    | None => (d, None)
    end
  | Some (t :: l) => (mkXdec (x_pos d) (Some l) (x_stack d) (x_close d) (x_err d), Some t)
  | Some [] =>
    match map fst (firstn (S chunk) (skipn (x_pos d) file)) with
    | [] => (d, None)
    | t :: l => (mkXdec (x_pos d + S (List.length l)) (Some l) (x_stack d) (x_close d) (x_err d), Some t)
    end
  end.

(** Decoder.rawToken *)
Definition raw_token (d : xdec) : xdec * res rawtok :=
  match x_err d with
  | Some e => (d, Err e)
  | None =>
    match x_close d with
    | Some n => (set_close d None, Ok (REnd n))
    | None =>
      match take_raw d with
      | (d1, None) => (set_err d1 EEof, Err EEof)
      | (d1, Some (RVoid n a)) => (set_close d1 (Some n), Ok (RStart n a))
      | (d1, Some (RProc t true)) => (match x_ahead d1 with None => mkXdec (x_pos d1) (Some []) (x_stack d1) (x_close d1) (x_err d1) | Some _ => d1 end, Ok (RProc t true))
      | (d1, Some t) => (d1, Ok t)
      end
    end
  end.

(** Decoder.Token, popElement *)
Definition token (d : xdec) : xdec * res rawtok :=
  match raw_token d with
  | (d1, Ok (RStart n a)) => (set_stack d1 (n :: x_stack d1), Ok (RStart n a))
  | (d1, Ok (REnd n)) =>
    match x_stack d1 with
    | [] => (set_err d1 (EMsg "unexpected end element"), Err (EMsg "unexpected end element"))
    | m :: stk => ((if bytes_eqb m n then set_stack d1 stk else set_close (set_stack d1 stk) (Some n)), Ok (REnd m))
    end
  | (d1, Err EEof) => (d1, Err (match x_stack d1 with [] => EEof | _ :: _ => EMsg "unexpected EOF" end))
  | (d1, r) => (d1, r)
  end.

(** *** xmlquery: the tree under construction *)

Inductive xkind := KDoc | KElem (name : bytes) (attrs : list (bytes * bytes)) | KDecl (target : bytes).

(** A node on the way from the document to [p.prev]: its children before and after
    the one on the way. *)
Record frame := mkFrame { f_level : nat; f_kind : xkind; f_before : list xtree; f_after : list xtree }.

Definition frame_tree (f : frame) : xtree :=
  match f_kind f with
  | KElem n a => XElem n a (f_before f ++ f_after f)
  | KDecl t => XDecl t
  | KDoc => XDecl []
  end.

(** [p.prev = p.prev.Parent] *)
Definition climb1 (sp : list frame) : option (list frame) :=
  match sp with
  | f :: g :: r => Some (mkFrame (f_level g) (f_kind g) (f_before g ++ frame_tree f :: f_after g) [] :: r)
  | _ => None
  end.
Fixpoint climb (n : nat) (sp : list frame) : option (list frame) :=
  match n with
  | O => Some sp
  | S n' => match climb1 sp with Some sp' => climb n' sp' | None => None end
  end.

(** AddChild or AddSibling of a node which becomes [p.prev]; [None]: the node would
    not be under the document. *)
Definition add_node (level : nat) (k : xkind) (sp : list frame) : option (list frame) :=
  match sp with
  | [] => None
  | top :: _ =>
    if Nat.ltb (f_level top) level then Some (mkFrame level k [] [] :: sp)
    else match climb (S (f_level top - level)) sp with
         | Some sp' => Some (mkFrame level k [] [] :: sp')
         | None => None
         end
  end.

Definition add_after (t : xtree) (f : frame) : frame := mkFrame (f_level f) (f_kind f) (f_before f) (f_after f ++ [t]).
(** The same for texts and comments, which do not become [p.prev].  A sibling
    of the document is lost. *)
Definition add_leaf (level : nat) (t : xtree) (sp : list frame) : option (list frame) :=
  match sp with
  | [] => None
  | top :: r =>
    match Nat.compare level (f_level top) with
    | Gt => Some (mkFrame (f_level top) (f_kind top) (f_before top ++ [t]) [] :: r)
    | Eq => Some (top :: match r with g :: r' => add_after t g :: r' | [] => [] end)
    | Lt =>
      match climb (f_level top - level - 1) sp with
      | Some (f :: g :: h :: r') => Some (f :: g :: add_after t h :: r')
      | Some sp' => Some sp'
      | None => None
      end
    end
  end.

(** What hangs under the document. *)
Fixpoint whole (sp : list frame) (inner : list xtree) : list xtree :=
  match sp with
  | [] => inner
  | f :: r =>
    let kids := f_before f ++ inner ++ f_after f in
    match f_kind f with
    | KElem n a => whole r [XElem n a kids]
    | KDecl t => whole r [XDecl t]
    | KDoc => kids
    end
  end.

(** *** XPath *)

(** Steps /name ([false]) and //name ([true]). *)
Definition xpattern := list (bool * bytes).

Fixpoint fits (path : list bytes) (pat : xpattern) {struct path} : bool :=
  match path, pat with
  | [], [] => true
  | m :: path', (any, n) :: pat' => (bytes_eqb n m && fits path' pat') || (any && fits path' pat)
  | _, _ => false
  end.

(** Whether an element under [t] is selected; [path]: the names above it. *)
Fixpoint selects (pat : xpattern) (path : list bytes) (t : xtree) : bool :=
  match t with
  | XElem n _ kids => fits (path ++ [n]) pat || existsb (selects pat (path ++ [n])) kids
  | _ => false
  end.

(** *** xmlquery: StreamParser *)

(** [xp_stream]: p.streamNode, by its place on the way (counted from the document) and
    its level. *)
Record xpstate := mkXp { xp_dec : xdec; xp_spine : list frame; xp_level : nat; xp_stream : option (nat * nat) }.

Variable pat : xpattern.

Definition unmodelled : err := EMsg "unmodelled".

(** parser.parse, one token: [Ok None] goes on. *)
Definition xstep (p : xpstate) : xpstate * res (option xtree) :=
  let (d, t) := token (xp_dec p) in
  let stay (sp : option (list frame)) (l : nat) : xpstate * res (option xtree) :=
    match sp with
    | Some sp' => (mkXp d sp' l (xp_stream p), Ok None)
    | None => (mkXp d (xp_spine p) l (xp_stream p), Err unmodelled)
    end in
  match t with
  | Ok (RStart n a) | Ok (RVoid n a) =>
    let '(sp, l) := match xp_level p with
                    | O => (mkFrame 1 (KDecl (lit "xml")) [] [] :: xp_spine p, 1)
                    | l => (xp_spine p, l)
                    end in
    match add_node l (KElem n a) sp with
    | None => (mkXp d (xp_spine p) (xp_level p) (xp_stream p), Err unmodelled)
    | Some sp' =>
      let stream := match xp_stream p with
                    | Some s => Some s
                    | None => if existsb (selects pat []) (whole sp' []) then Some (List.length sp', l) else None
                    end in
      (mkXp d sp' (S l) stream, Ok None)
    end
  | Ok (REnd _) =>
    let l := xp_level p - 1 in
    match xp_stream p with
    | Some (depth, sl) =>
      if Nat.eqb l sl then
        match climb (List.length (xp_spine p) - depth) (xp_spine p) with
        | Some (f :: _) => (mkXp d (xp_spine p) l (xp_stream p), Ok (Some (frame_tree f)))
        | _ => (mkXp d (xp_spine p) l (xp_stream p), Err unmodelled)
        end
      else stay (Some (xp_spine p)) l
    | None => stay (Some (xp_spine p)) l
    end
  | Ok (RText s) => stay (add_leaf (xp_level p) (XText s) (xp_spine p)) (xp_level p)
  | Ok (RComment s) => stay (add_leaf (xp_level p) (XComment s) (xp_spine p)) (xp_level p)
  | Ok (RProc target _) =>
    let decl := match xp_spine p with mkFrame _ (KDecl _) _ _ :: _ => true | _ => false end in
    let l := if decl then xp_level p else S (xp_level p) in
    match xp_spine p with
    | top :: _ => if Nat.ltb l (f_level top) then (mkXp d (xp_spine p) l (xp_stream p), Err unmodelled)
                  else stay (add_node l (KDecl target) (xp_spine p)) l
    | [] => (mkXp d (xp_spine p) l (xp_stream p), Err unmodelled)
    end
  | Ok (RDirective _) => stay (Some (xp_spine p)) (xp_level p)
  | Err e => (mkXp d (xp_spine p) (xp_level p) (xp_stream p), Err e)
  | Panic => (mkXp d (xp_spine p) (xp_level p) (xp_stream p), Panic)
  | NoFuel => (mkXp d (xp_spine p) (xp_level p) (xp_stream p), NoFuel)
  end.

(** parser.parse *)
Fixpoint xparse (fuel : nat) (p : xpstate) : xpstate * res xtree :=
  match fuel with
  | O => (p, NoFuel)
  | S fuel' =>
    match xstep p with
    | (p1, Ok None) => xparse fuel' p1
    | (p1, Ok (Some t)) => (p1, Ok t)
    | (p1, Err e) => (p1, Err e)
    | (p1, Panic) => (p1, Panic)
    | (p1, NoFuel) => (p1, NoFuel)
    end
  end.

(** StreamParser.Read: the last record and everything before it leave the tree. *)
Definition settle (p : xpstate) : xpstate :=
  match xp_stream p with
  | None => p
  | Some (depth, _) =>
    match climb (List.length (xp_spine p) - depth) (xp_spine p) with
    | Some (_ :: g :: r) => mkXp (xp_dec p) (mkFrame (f_level g) (f_kind g) (f_after g) [] :: r) (xp_level p) None
    | _ => p
    end
  end.

(** Enough steps: see [xread_fuel] in XmlReadFacts.v. *)
Definition xfuel (p : xpstate) : nat :=
  S (S (3 * List.length file + 3 * match x_ahead (xp_dec p) with Some l => List.length l | None => O end + List.length (x_stack (xp_dec p)))).

Definition xread (p : xpstate) : xpstate * res xtree := let q := settle p in xparse (xfuel q) q.

(** *** xml.go *)

(** xmlquery.CreateStreamParserWithOptions, xml.go:72-79 *)
Definition new_xparser : xpstate := mkXp (mkXdec O None [] None None) [mkFrame O KDoc [] []] O None.

(** util.SetBufferedReaderOffset, xml.go:96 *)
Definition xseek (i : nat) (p : xpstate) : xpstate :=
  let d := xp_dec p in mkXp (mkXdec i (x_ahead d) (x_stack d) (x_close d) (x_err d)) (xp_spine p) (xp_level p) (xp_stream p).

(** StreamParser.Read, token by token. *)
Fixpoint xparse_prog (fuel : nat) : prog xpstate (res xtree) :=
  match fuel with
  | O => Ret NoFuel
  | S fuel' =>
    plet p := get in
    plet _ := modify (fun q => fst (xstep q)) in
    match snd (xstep p) with
    | Ok None => xparse_prog fuel'
    | Ok (Some t) => Ret (Ok t)
    | Err e => Ret (Err e)
    | Panic => Ret Panic
    | NoFuel => Ret NoFuel
    end
  end.

(** xml.go:92-108, between Lock and Unlock *)
Definition xml_get_at (position : Z) : prog xpstate (res xtree) :=
  if (position <? 0)%Z then Ret (Err EIo)
  else
    match xtoken_at file position with
    | None => Ret (Err unmodelled)
    | Some i =>
      plet _ := modify (xseek i) in
      plet _ := modify settle in
      plet p := get in
      plet r := xparse_prog (xfuel p) in
      Ret (match r with
           | Err EEof => Err (EMsg "Did not find an XML record at position")
           | Err e => if match e with EMsg m => String.eqb m "unmodelled" | _ => false end then Err e else Err (EMsg "Cannot read xml data")
           | _ => r
           end)
    end.

(** xml.go:128-170: the results until the end or the first error. *)
Fixpoint xml_iterate (fuel : nat) (p : xpstate) : list (res (Z * xtree)) :=
  match fuel with
  | O => [NoFuel]
  | S fuel' =>
    match xread p with
    | (p1, Ok t) => Ok (xoffset file (x_pos (xp_dec p)), t) :: xml_iterate fuel' p1
    | (_, Err EEof) => []
    | (_, Err e) => [Err e]
    | (_, Panic) => [Panic]
    | (_, NoFuel) => [NoFuel]
    end
  end.
(** Every record takes a step of its own: see [iterate_ends] in XmlReadFacts.v. *)
Definition xml_iterate_all : list (res (Z * xtree)) := xml_iterate (xfuel new_xparser) new_xparser.

(** One Get after the other. *)
Fixpoint gets (positions : list Z) (p : xpstate) : xpstate :=
  match positions with
  | [] => p
  | z :: zs => gets zs (snd (exec (xml_get_at z) p))
  end.

(** Get for the [k]-th record of an index. *)
Definition xml_get_record (indexed : list (Z * xtree)) (k : nat) : prog xpstate (res xtree) :=
  match nth_error indexed k with
  | Some (z, _) => xml_get_at z
  | None => Ret (Err ENotFound)
  end.
End Xml.
