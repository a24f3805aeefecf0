(** The part of SQLite that pkg/index/sqlite.go, fts5.go and sqlite/*.go rely on:
    how a statement is cut into tokens, read and executed.  This is a model of the
    library go-sqlite3 v1.14.8 embeds (SQLite 3.36), not of /repo; it belongs to
    the trusted base (DESIGN.md, oracles).  Statements that /repo never sends are
    not part of the grammar: they are refused like a syntax error. *)
From Coq Require Import List ZArith Lia Bool String.
From Coq Require Import Strings.Byte.
From Coq Require Import Floats.SpecFloat.
From Verif Require Import Base Value.
Import ListNotations.
Open Scope Z_scope.

(** *** Tokens *)

Inductive tok :=
| TWord (s : bytes)    (* keyword or bare name *)
| TQuoted (s : bytes)  (* "..." with "" for a quote *)
| TString (s : bytes)  (* '...' with '' for a quote *)
| TNum (s : bytes)
| TVar                 (* ? *)
| TSym (c : byte).     (* ( ) , ; = * *)

Definition code (c : byte) : Z := Z.of_N (Byte.to_N c).
Definition between (lo hi : Z) (c : byte) : bool := (lo <=? code c) && (code c <=? hi).

Definition is_space (c : byte) : bool := between 9 10 c || between 12 13 c || (code c =? 32).
Definition is_digit (c : byte) : bool := between 48 57 c.
Definition is_word_start (c : byte) : bool :=
  between 65 90 c || between 97 122 c || (code c =? 95) || between 128 255 c.
Definition is_word_char (c : byte) : bool := is_word_start c || is_digit c || (code c =? 36).
Definition is_symbol (c : byte) : bool :=
  (code c =? 40) || (code c =? 41) || (code c =? 44) || (code c =? 59) || (code c =? 61) || (code c =? 42).

Definition dquote : byte := Byte.x22.
Definition squote : byte := Byte.x27.

(** Where the tokenizer is.  [LEnd]: the text of a statement stops at the first NUL. *)
Inductive lstate :=
| LBetween
| LWord (acc : bytes)
| LNum (acc : bytes)
| LQuote (q : byte) (acc : bytes)   (* inside quotes *)
| LClosed (q : byte) (acc : bytes)  (* after a quote that may be the first of two *)
| LEnd.

Definition quoted (q : byte) (s : bytes) : tok := if beqb q squote then TString s else TQuoted s.

(** One byte when no token is being read. *)
Definition lex_start (c : byte) : option (list tok * lstate) :=
  if code c =? 0 then Some ([], LEnd)
  else if is_space c then Some ([], LBetween)
  else if is_word_start c then Some ([], LWord [c])
  else if is_digit c then Some ([], LNum [c])
  else if beqb c dquote || beqb c squote then Some ([], LQuote c [])
  else if code c =? 63 then Some ([TVar], LBetween)
  else if is_symbol c then Some ([TSym c], LBetween)
  else None.

Definition lex_after (t : tok) (c : byte) : option (list tok * lstate) :=
  match lex_start c with
  | Some (ts, st) => Some (t :: ts, st)
  | None => None
  end.

Definition lex_byte (st : lstate) (c : byte) : option (list tok * lstate) :=
  match st with
  | LBetween => lex_start c
  | LWord acc => if is_word_char c then Some ([], LWord (acc ++ [c])) else lex_after (TWord acc) c
  | LNum acc => if is_digit c then Some ([], LNum (acc ++ [c])) else lex_after (TNum acc) c
  | LQuote q acc =>
    if code c =? 0 then None
    else if beqb c q then Some ([], LClosed q acc) else Some ([], LQuote q (acc ++ [c]))
  | LClosed q acc => if beqb c q then Some ([], LQuote q (acc ++ [q])) else lex_after (quoted q acc) c
  | LEnd => Some ([], LEnd)
  end.

Fixpoint lex_run (st : lstate) (s : bytes) : option (list tok * lstate) :=
  match s with
  | [] => Some ([], st)
  | c :: s' =>
    match lex_byte st c with
    | None => None
    | Some (ts, st1) =>
      match lex_run st1 s' with
      | None => None
      | Some (ts', st2) => Some (ts ++ ts', st2)
      end
    end
  end.

Definition lex_end (st : lstate) : option (list tok) :=
  match st with
  | LBetween | LEnd => Some []
  | LWord acc => Some [TWord acc]
  | LNum acc => Some [TNum acc]
  | LClosed q acc => Some [quoted q acc]
  | LQuote _ _ => None
  end.

Definition lex (s : bytes) : option (list tok) :=
  match lex_run LBetween s with
  | None => None
  | Some (ts, st) => match lex_end st with None => None | Some ts' => Some (ts ++ ts') end
  end.

(** *** Statements *)

Record coldef := mkCol { c_name : bytes; c_type : bytes; c_notnull : bool; c_collate : bytes }.

Inductive stmt :=
| CreateTable (if_not_exists : bool) (t : bytes) (cols : list coldef)
| CreateIndex (i t c : bytes)
| CreateFts (t : bytes) (cols : list bytes) (prefix tokenize : bytes)
| DeleteFrom (t : bytes)
| InsertInto (t : bytes) (cols : list bytes) (values : nat)
| SelectEscaped                               (* SELECT printf('%w', ?) *)
| CountMaster (n : bytes)                     (* sqlite_master, type = 'table' AND name = ... *)
| CountRows (t : bytes)
| Select (cols : list bytes) (t : bytes) (eqs : list bytes)  (* WHERE c = ? AND ... *)
| SelectMatch (c t m : bytes).                (* WHERE m MATCH ? *)

(** Names and keywords are compared without regard to ASCII case. *)
Definition lower_ascii (c : byte) : byte :=
  if between 65 90 c then match Byte.of_N (Z.to_N (code c + 32)) with Some b => b | None => c end else c.
Definition fold_name (n : bytes) : bytes := map lower_ascii n.
Definition name_eqb (a b : bytes) : bool := bytes_eqb (fold_name a) (fold_name b).

Definition is_word (k : string) (t : tok) : bool :=
  match t with TWord w => name_eqb w (lit k) | _ => false end.
Definition is_sym (c : byte) (t : tok) : bool :=
  match t with TSym d => beqb c d | _ => false end.

(** The rest after the given keywords. *)
Fixpoint skip_words (ks : list string) (ts : list tok) : option (list tok) :=
  match ks with
  | [] => Some ts
  | k :: ks' =>
    match ts with
    | t :: ts' => if is_word k t then skip_words ks' ts' else None
    | [] => None
    end
  end.

Definition skip_sym (c : byte) (ts : list tok) : option (list tok) :=
  match ts with
  | t :: ts' => if is_sym c t then Some ts' else None
  | [] => None
  end.

Definition p_open := Byte.x28.
Definition p_close := Byte.x29.
Definition p_comma := Byte.x2c.
Definition p_semi := Byte.x3b.
Definition p_eq := Byte.x3d.
Definition p_star := Byte.x2a.

(** Items separated by commas up to the closing parenthesis. *)
Fixpoint p_items (cur : list tok) (ts : list tok) : option (list (list tok) * list tok) :=
  match ts with
  | [] => None
  | t :: ts' =>
    if is_sym p_close t then Some ([cur], ts')
    else if is_sym p_comma t then
      match p_items [] ts' with
      | None => None
      | Some (items, rest) => Some (cur :: items, rest)
      end
    else p_items (cur ++ [t]) ts'
  end.

Definition p_parens (ts : list tok) : option (list (list tok) * list tok) :=
  match skip_sym p_open ts with
  | None => None
  | Some ts' => p_items [] ts'
  end.

(** The end of a statement. *)
Definition p_end (ts : list tok) : bool :=
  match ts with
  | [] => true
  | [t] => is_sym p_semi t
  | _ => false
  end.

Fixpoint omap {A B} (f : A -> option B) (l : list A) : option (list B) :=
  match l with
  | [] => Some []
  | x :: l' =>
    match f x with
    | None => None
    | Some y => match omap f l' with None => None | Some ys => Some (y :: ys) end
    end
  end.

Definition p_name (ts : list tok) : option bytes :=
  match ts with [TQuoted n] => Some n | _ => None end.

Definition p_coldef (ts : list tok) : option coldef :=
  match ts with
  | TQuoted n :: TWord ty :: rest =>
    match rest with
    | [] => Some (mkCol n ty false (lit "BINARY"))
    | [a; TWord c] =>
      if is_word "COLLATE" a then Some (mkCol n ty false c)
      else if is_word "NOT" a && is_word "NULL" (TWord c) then Some (mkCol n ty true (lit "BINARY"))
      else None
    | _ => None
    end
  | _ => None
  end.

(** The arguments of fts5(...): columns, then prefix and tokenize. *)
Fixpoint p_fts (items : list (list tok)) : option (list bytes * bytes * bytes) :=
  match items with
  | [[a; e; TString p]; [b; e'; TQuoted t]] =>
    if is_word "prefix" a && is_sym p_eq e && is_word "tokenize" b && is_sym p_eq e'
    then Some ([], p, t) else None
  | [TQuoted n] :: items' =>
    match p_fts items' with Some (cs, p, t) => Some (n :: cs, p, t) | None => None end
  | [TQuoted n; u] :: items' =>
    if is_word "UNINDEXED" u then
      match p_fts items' with Some (cs, p, t) => Some (n :: cs, p, t) | None => None end
    else None
  | _ => None
  end.

Definition p_var (ts : list tok) : option unit :=
  match ts with [TVar] => Some tt | _ => None end.

(** "c" = ? AND "c" = ? ... *)
Fixpoint p_eqs (fuel : nat) (ts : list tok) : option (list bytes) :=
  match fuel with
  | O => None
  | S fuel' =>
    match ts with
    | TQuoted c :: e :: TVar :: rest =>
      if is_sym p_eq e then
        if p_end rest then Some [c]
        else match skip_words ["AND"%string] rest with
             | None => None
             | Some rest' => match p_eqs fuel' rest' with None => None | Some cs => Some (c :: cs) end
             end
      else None
    | _ => None
    end
  end.

(** "c", "c" FROM *)
Fixpoint p_cols (ts : list tok) : option (list bytes * list tok) :=
  match ts with
  | TQuoted c :: t :: rest =>
    if is_word "FROM" t then Some ([c], rest)
    else if is_sym p_comma t then
      match p_cols rest with Some (cs, r) => Some (c :: cs, r) | None => None end
    else None
  | _ => None
  end.

Definition p_create_table (ine : bool) (ts : list tok) : option stmt :=
  match ts with
  | TQuoted t :: rest =>
    match p_parens rest with
    | Some (items, rest') =>
      match omap p_coldef items with
      | Some cols => if p_end rest' then Some (CreateTable ine t cols) else None
      | None => None
      end
    | None => None
    end
  | _ => None
  end.

Definition p_create_index (ts : list tok) : option stmt :=
  match ts with
  | TQuoted i :: o :: TQuoted t :: rest =>
    if is_word "ON" o then
      match p_parens rest with
      | Some ([[TQuoted c]], rest') => if p_end rest' then Some (CreateIndex i t c) else None
      | _ => None
      end
    else None
  | _ => None
  end.

Definition p_create_fts (ts : list tok) : option stmt :=
  match ts with
  | TQuoted t :: rest =>
    match skip_words ["USING"; "fts5"]%string rest with
    | None => None
    | Some rest1 =>
      match p_parens rest1 with
      | Some (items, rest') =>
        match p_fts items with
        | Some (cs, p, k) => if p_end rest' then Some (CreateFts t cs p k) else None
        | None => None
        end
      | None => None
      end
    end
  | _ => None
  end.

Definition p_delete (ts : list tok) : option stmt :=
  match ts with
  | TQuoted t :: rest => if p_end rest then Some (DeleteFrom t) else None
  | _ => None
  end.

Definition p_insert (ts : list tok) : option stmt :=
  match ts with
  | TQuoted t :: rest =>
    match p_parens rest with
    | Some (items, rest1) =>
      match omap p_name items, skip_words ["VALUES"%string] rest1 with
      | Some cols, Some rest2 =>
        match p_parens rest2 with
        | Some (vs, rest3) =>
          match omap p_var vs with
          | Some us => if p_end rest3 then Some (InsertInto t cols (List.length us)) else None
          | None => None
          end
        | None => None
        end
      | _, _ => None
      end
    | None => None
    end
  | _ => None
  end.

Definition p_select (ts : list tok) : option stmt :=
  match p_cols ts with
  | Some (cols, TQuoted t :: rest) =>
    if p_end rest then Some (Select cols t [])
    else match skip_words ["WHERE"%string] rest with
    | None => None
    | Some rest' =>
      match rest' with
      | TQuoted m :: k :: TVar :: rest'' =>
        if is_word "MATCH" k then
          match cols with
          | [c] => if p_end rest'' then Some (SelectMatch c t m) else None
          | _ => None
          end
        else match p_eqs (List.length rest') rest' with Some eqs => Some (Select cols t eqs) | None => None end
      | _ => None
      end
    end
  | _ => None
  end.

(** SELECT COUNT(1) FROM t; and SELECT COUNT( * ) FROM sqlite_master WHERE ... *)
Definition p_count (ts : list tok) : option stmt :=
  match p_parens ts with
  | Some ([[x]], rest) =>
    match skip_words ["FROM"%string] rest with
    | Some (TQuoted t :: rest') =>
      match x with
      | TNum _ => if p_end rest' then Some (CountRows t) else None
      | _ => None
      end
    | Some rest' =>
      if is_sym p_star x then
        match skip_words ["sqlite_master"; "WHERE"; "type"]%string rest' with
        | Some (e :: TString k :: rest1) =>
          if is_sym p_eq e && bytes_eqb k (lit "table") then
            match skip_words ["AND"; "name"]%string rest1 with
            | Some (e' :: TQuoted n :: rest2) =>
              if is_sym p_eq e' && p_end rest2 then Some (CountMaster n) else None
            | _ => None
            end
          else None
        | _ => None
        end
      else None
    | None => None
    end
  | _ => None
  end.

Definition p_escaped (ts : list tok) : option stmt :=
  match p_parens ts with
  | Some ([[TString f]; [TVar]], rest) =>
    if bytes_eqb f (lit "%w") && p_end rest then Some SelectEscaped else None
  | _ => None
  end.

Fixpoint first_of (alts : list (list string * (list tok -> option stmt))) (ts : list tok) : option stmt :=
  match alts with
  | [] => None
  | (ks, p) :: alts' =>
    match skip_words ks ts with
    | Some rest => p rest
    | None => first_of alts' ts
    end
  end.

Definition p_stmt : list tok -> option stmt :=
  first_of
    [ (["CREATE"; "TABLE"; "IF"; "NOT"; "EXISTS"], p_create_table true);
      (["CREATE"; "TABLE"], p_create_table false);
      (["CREATE"; "INDEX"], p_create_index);
      (["CREATE"; "VIRTUAL"; "TABLE"], p_create_fts);
      (["DELETE"; "FROM"], p_delete);
      (["INSERT"; "INTO"], p_insert);
      (["SELECT"; "printf"], p_escaped);
      (["SELECT"; "COUNT"], p_count);
      (["SELECT"], p_select) ]%string.

Definition parse (s : bytes) : option stmt :=
  match lex s with
  | None => None
  | Some ts => p_stmt ts
  end.

(** *** Values *)

(** Storage classes.  A BLOB is never stored by /repo. *)
Inductive sqlv := SNull | SInt (z : Z) | SReal (f : spec_float) | SText (s : bytes).

(** database/sql's default converter and go-sqlite3's bind: NaN is bound as NULL
    (sqlite3_bind_double), a bool as 0 or 1, slices and maps are refused. *)
Definition bind_value (v : value) : res sqlv :=
  match v with
  | VNil => Ok SNull
  | VBool b => Ok (SInt (if b then 1 else 0))
  | VInt z => Ok (SInt z)
  | VFloat S754_nan => Ok SNull
  | VFloat f => Ok (SReal f)
  | VString s => Ok (SText s)
  | VList _ | VMap _ => Err (EMsg "unsupported type")
  end.

(** sqlite3IntFloatCompare: exact. *)
Definition int_real_eqb (z : Z) (f : spec_float) : bool :=
  match f with
  | S754_zero _ => z =? 0
  | S754_finite s m e =>
    let n := if s then Z.neg m else Z.pos m in
    if 0 <=? e then z =? n * 2 ^ e else z * 2 ^ (- e) =? n
  | _ => false
  end.

(** sqlite3StrNICmp stops at a NUL. *)
Fixpoint nocase_prefix (a b : bytes) : bool :=
  match a, b with
  | [], _ | _, [] => true
  | x :: a', y :: b' =>
    beqb (lower_ascii x) (lower_ascii y) && ((code x =? 0) || nocase_prefix a' b')
  end.

Fixpoint drop_spaces (s : bytes) : bytes :=
  match s with
  | c :: s' => if code c =? 32 then drop_spaces s' else s
  | [] => []
  end.

(** The built-in collations BINARY, NOCASE and RTRIM: equality. *)
Definition collate_eqb (c : bytes) (a b : bytes) : bool :=
  if name_eqb c (lit "NOCASE") then Nat.eqb (List.length a) (List.length b) && nocase_prefix a b
  else if name_eqb c (lit "RTRIM") then bytes_eqb (drop_spaces (rev a)) (drop_spaces (rev b))
  else bytes_eqb a b.

Definition known_collation (c : bytes) : bool :=
  name_eqb c (lit "BINARY") || name_eqb c (lit "NOCASE") || name_eqb c (lit "RTRIM").

(** [a = b] is true.  Comparing with NULL gives NULL, which is not true.  Neither a
    BLOB column nor a parameter converts the other side. *)
Definition sql_eqb (c : bytes) (a b : sqlv) : bool :=
  match a, b with
  | SInt x, SInt y => x =? y
  | SReal x, SReal y => SFeqb x y
  | SInt x, SReal y => int_real_eqb x y
  | SReal x, SInt y => int_real_eqb y x
  | SText x, SText y => collate_eqb c x y
  | _, _ => false
  end.

(** *** Database *)

Record table := mkTable { t_cols : list coldef; t_rows : list (list sqlv) }.

(** [d_tables]: tables, including virtual tables and their shadow tables, under the
    name they were created with; [d_indexes]: index name, table. *)
Record db := mkDb { d_tables : list (bytes * table); d_indexes : list (bytes * bytes) }.

Definition empty_db : db := mkDb [] [].

Fixpoint find_table (ts : list (bytes * table)) (n : bytes) : option table :=
  match ts with
  | [] => None
  | (m, t) :: ts' => if name_eqb m n then Some t else find_table ts' n
  end.

Definition has_index (d : db) (n : bytes) : bool := existsb (fun i => name_eqb (fst i) n) (d_indexes d).

Fixpoint set_table (ts : list (bytes * table)) (n : bytes) (t : table) : list (bytes * table) :=
  match ts with
  | [] => []
  | (m, t') :: ts' => if name_eqb m n then (m, t) :: ts' else (m, t') :: set_table ts' n t
  end.

Definition taken (d : db) (n : bytes) : bool :=
  match find_table (d_tables d) n with Some _ => true | None => has_index d n end.

Definition with_rows (d : db) (n : bytes) (t : table) (rows : list (list sqlv)) : db :=
  mkDb (set_table (d_tables d) n (mkTable (t_cols t) rows)) (d_indexes d).

Fixpoint find_col (cols : list coldef) (n : bytes) : option (nat * coldef) :=
  match cols with
  | [] => None
  | c :: cols' =>
    if name_eqb (c_name c) n then Some (O, c)
    else match find_col cols' n with Some (i, c') => Some (S i, c') | None => None end
  end.

Fixpoint distinct_names (ns : list bytes) : bool :=
  match ns with
  | [] => true
  | n :: ns' => negb (existsb (name_eqb n) ns') && distinct_names ns'
  end.

(** printf's %w: a double quote is doubled; the argument is read as a C string. *)
Fixpoint until_nul (s : bytes) : bytes :=
  match s with
  | [] => []
  | c :: s' => if code c =? 0 then [] else c :: until_nul s'
  end.
Definition double_quotes (s : bytes) : bytes :=
  flat_map (fun c => if beqb c dquote then [c; c] else [c]) s.

(** A double-quoted name in an expression: the column, or, when there is none, the
    text itself. *)
Definition column_value (t : table) (row : list sqlv) (n : bytes) : sqlv :=
  match find_col (t_cols t) n with
  | Some (i, _) => nth i row SNull
  | None => SText n
  end.
Definition column_collation (t : table) (n : bytes) : bytes :=
  match find_col (t_cols t) n with
  | Some (_, c) => c_collate c
  | None => lit "BINARY"
  end.

Fixpoint eqs_hold (t : table) (row : list sqlv) (eqs : list bytes) (args : list sqlv) : bool :=
  match eqs, args with
  | [], _ => true
  | c :: eqs', a :: args' =>
    sql_eqb (column_collation t c) (column_value t row c) a && eqs_hold t row eqs' args'
  | _ :: _, [] => false
  end.

(** The value a row gets for a column: the parameter at the place of that column
    in the list of the INSERT. *)
Fixpoint insert_value (c : coldef) (cols : list bytes) (args : list sqlv) : sqlv :=
  match cols, args with
  | n :: cols', a :: args' => if name_eqb (c_name c) n then a else insert_value c cols' args'
  | _, _ => SNull
  end.

Definition is_null (v : sqlv) : bool := match v with SNull => true | _ => false end.

Definition shadow_suffixes : list bytes :=
  [lit "_data"; lit "_idx"; lit "_content"; lit "_docsize"; lit "_config"].

Definition reserved_fts (n : bytes) : bool := name_eqb n (lit "rank") || name_eqb n (lit "rowid").

(** The columns of a full-text table.  Its options, which decide what is found, are kept
    as their type. *)
Definition fts_columns (cols : list bytes) (prefix tokenize : bytes) : list coldef :=
  map (fun c => mkCol c (prefix ++ [x00] ++ tokenize) false (lit "BINARY")) cols.

Section Engine.

(** In which order, and after which failures, the rows that satisfy a query are
    delivered: the choice of the query planner and of the operating system. *)
Variable visit : list (list sqlv) -> list (res (list sqlv)).
(** The options of a full-text table are acceptable. *)
Variable fts_ok : list bytes -> bytes -> bytes -> bool.
(** The rows of a full-text table that satisfy a MATCH expression. *)
Variable fts_match : table -> sqlv -> res (list (list sqlv)).

Definition answer := list (res (list sqlv)).

Definition fresh_table (cols : list coldef) : table := mkTable cols [].

Definition exec_stmt (s : stmt) (args : list sqlv) (d : db) : res (db * answer) :=
  match s with
  | CreateTable ine n cols =>
    match find_table (d_tables d) n with
    | Some _ => if ine then Ok (d, []) else Err (EMsg "table already exists")
    | None =>
      if has_index d n then Err (EMsg "there is already an index named") else
      if negb (distinct_names (map c_name cols)) then Err (EMsg "duplicate column name") else
      if negb (forallb (fun c => known_collation (c_collate c)) cols) then Err (EMsg "no such collation sequence") else
      Ok (mkDb (d_tables d ++ [(n, fresh_table cols)]) (d_indexes d), [])
    end
  | CreateIndex i n c =>
    match find_table (d_tables d) n with
    | None => Err (EMsg "no such table")
    | Some t =>
      if taken d i then Err (EMsg "already exists") else
      match find_col (t_cols t) c with
      | None => Err (EMsg "no such column")
      | Some _ => Ok (mkDb (d_tables d) (d_indexes d ++ [(i, n)]), [])
      end
    end
  | CreateFts n cols p k =>
    if taken d n then Err (EMsg "already exists") else
    if existsb (fun x => taken d (n ++ x)) shadow_suffixes then Err (EMsg "already exists") else
    if existsb reserved_fts cols || negb (distinct_names cols) || negb (fts_ok cols p k) then Err (EMsg "vtable constructor failed") else
    Ok (mkDb (d_tables d ++ (n, fresh_table (fts_columns cols p k))
                :: map (fun x => (n ++ x, fresh_table [])) shadow_suffixes) (d_indexes d), [])
  | DeleteFrom n =>
    match find_table (d_tables d) n with
    | None => Err (EMsg "no such table")
    | Some t => Ok (with_rows d n t [], [])
    end
  | InsertInto n cols values =>
    match find_table (d_tables d) n with
    | None => Err (EMsg "no such table")
    | Some t =>
      if negb (forallb (fun c => match find_col (t_cols t) c with Some _ => true | None => false end) cols)
      then Err (EMsg "table has no column named")
      else if negb (Nat.eqb values (List.length cols) && Nat.eqb values (List.length args))
      then Err (EMsg "values for columns")
      else let row := map (fun c => insert_value c cols args) (t_cols t) in
        if existsb (fun cv => c_notnull (fst cv) && is_null (snd cv)) (combine (t_cols t) row)
        then Err (EMsg "NOT NULL constraint failed")
        else Ok (with_rows d n t (t_rows t ++ [row]), [])
    end
  | SelectEscaped =>
    match args with
    | [SText s] => Ok (d, [Ok [SText (double_quotes (until_nul s))]])
    | _ => Err (EMsg "not modelled")
    end
  | CountMaster n =>
    Ok (d, [Ok [SInt (zlen (filter (fun mt => bytes_eqb (fst mt) n) (d_tables d)))]])
  | CountRows n =>
    match find_table (d_tables d) n with
    | None => Err (EMsg "no such table")
    | Some t => Ok (d, [Ok [SInt (zlen (t_rows t))]])
    end
  | Select cols n eqs =>
    match find_table (d_tables d) n with
    | None => Err (EMsg "no such table")
    | Some t =>
      if negb (Nat.eqb (List.length eqs) (List.length args)) then Err (EMsg "not enough args")
      else let rows := map (fun row => map (column_value t row) cols)
                           (filter (fun row => eqs_hold t row eqs args) (t_rows t)) in
           Ok (d, match eqs with [] => map Ok rows | _ :: _ => visit rows end)
    end
  | SelectMatch c n m =>
    match find_table (d_tables d) n with
    | None => Err (EMsg "no such table")
    | Some t =>
      match args with
      | [a] =>
        if negb (name_eqb n m) then Err (EMsg "no such column") else
        rlet rows := fts_match t a in
        Ok (d, visit (map (fun row => [column_value t row c]) rows))
      | _ => Err (EMsg "not enough args")
      end
    end
  end.

(** A statement as text, with its parameters.  A statement that fails changes
    nothing. *)
Definition exec_sql (q : bytes) (args : list sqlv) (d : db) : db * res answer :=
  match parse q with
  | None => (d, Err (EMsg "syntax error"))
  | Some s =>
    match exec_stmt s args d with
    | Ok (d', a) => (d', Ok a)
    | Err e => (d, Err e)
    | Panic => (d, Panic)
    | NoFuel => (d, NoFuel)
    end
  end.

(** *** Go programs that send statements *)

Inductive sprog (A : Type) : Type :=
| SRet (r : res A)
| SDo (q : bytes) (args : list sqlv) (k : res answer -> sprog A).
Arguments SRet {A} r.
Arguments SDo {A} q args k.

(** The usual [if err != nil { return err }]. *)
Fixpoint sbind {A B} (p : sprog A) (f : A -> sprog B) : sprog B :=
  match p with
  | SRet (Ok a) => f a
  | SRet (Err e) => SRet (Err e)
  | SRet Panic => SRet Panic
  | SRet NoFuel => SRet NoFuel
  | SDo q args k => SDo q args (fun r => sbind (k r) f)
  end.

Fixpoint srun {A} (p : sprog A) (d : db) : db * res A :=
  match p with
  | SRet r => (d, r)
  | SDo q args k => let dr := exec_sql q args d in srun (k (snd dr)) (fst dr)
  end.

(** The states the database goes through: what a process that stops between two
    statements can leave behind. *)
Fixpoint sstates {A} (p : sprog A) (d : db) : list db :=
  d :: match p with
       | SRet _ => []
       | SDo q args k => let dr := exec_sql q args d in sstates (k (snd dr)) (fst dr)
       end.

End Engine.
Arguments SRet {A} r.
Arguments SDo {A} q args k.
Notation "'slet' x ':=' e1 'in' e2" := (sbind e1 (fun x => e2))
  (at level 200, x pattern, e1 at level 200, e2 at level 200).
