(** The records of CSV, JSON and XML inputs: reading one property, or all. *)
From Coq Require Import List ZArith Lia Bool String.
From Coq Require Import Strings.Byte Floats.SpecFloat.
From Verif Require Import Base Value GoStrings.
Import ListNotations.
Open Scope Z_scope.

(** [strings.Split(path, ".")] *)
Definition segments (path : bytes) : list bytes := go_split path (lit ".").

(** [a[index]] for an index below the length; a negative one panics. *)
Definition item_at {A} (l : list A) (i : Z) : res A :=
  if i <? 0 then Panic else match nth_error l (Z.to_nat i) with Some x => Ok x | None => Panic end.

(** pkg/input/record/path.go:8-40 *)
Fixpoint get_sub_value (v : value) (path : list bytes) : res value :=
  match path with
  | [] => Ok v
  | k :: path' =>
    match v with
    | VMap m => match mget m k with None => Ok VNil | Some v' => get_sub_value v' path' end
    | VList l =>
      match atoi k with
      | Ok i => if zlen l <=? i then Ok VNil else rlet v' := item_at l i in get_sub_value v' path'
      | Err _ => Err (EMsg "Cannot get sub-path because the value is an array")
      | Panic => Panic
      | NoFuel => NoFuel
      end
    | _ => Err (EMsg "Cannot get sub-path because the value is primitive or unknown")
    end
  end.

(** *** CSV *)

(** A parser object: its Parse method. *)
Definition parser_fun := bytes -> res value.

(** pkg/input/csv_config.go:98-107 and csv.go:136-152: [ColumnIndexByName]. *)
Fixpoint column_index (names : list bytes) (i : nat) (m : list (bytes * nat)) : list (bytes * nat) :=
  match names with
  | [] => m
  | n :: names' => column_index names' (S i) (mset m n i)
  end.

(** pkg/input/csv_record.go:46-63.  [names], [ps]: Columns and columnParsers, by
    index. *)
Definition csv_column (names : list bytes) (ps : list parser_fun) (row : list bytes) (name : bytes) : res value :=
  match mget (column_index names 0 []) name with
  | None => Err (EMsg "The column does not exist.")
  | Some i =>
    match nth_error row i with
    | None => Ok VNil
    | Some cell =>
      match nth_error ps i with
      | None => Panic
      | Some p => p cell
      end
    end
  end.

(** pkg/input/csv_record.go:31-43 *)
Fixpoint csv_all_from (names : list bytes) (ps : list parser_fun) (row : list bytes) (cols : list bytes) (m : list (bytes * value)) : res (list (bytes * value)) :=
  match cols with
  | [] => Ok m
  | c :: cols' => rlet v := csv_column names ps row c in csv_all_from names ps row cols' (mset m c v)
  end.
Definition csv_all (names : list bytes) (ps : list parser_fun) (row : list bytes) : res (list (bytes * value)) :=
  csv_all_from names ps row names [].

(** pkg/input/csv_record.go:65-78 *)
Definition csv_get (names : list bytes) (ps : list parser_fun) (row : list bytes) (path : bytes) : res value :=
  match path with
  | [] => Err (EMsg "Cannot get the property because it's path is empty.")
  | _ :: _ =>
    match segments path with
    | [] => Panic
    | c :: rest => rlet v := csv_column names ps row c in get_sub_value v rest
    end
  end.

Definition csv_record (names : list bytes) (ps : list parser_fun) (row : list bytes) (pos : Z) : rec :=
  mkRec pos (csv_get names ps row) (csv_all names ps row).

(** pkg/input/csv.go:128-155 after reading the first row: the columns. *)
Fixpoint autodetect (row : list bytes) (seen : list bytes) : res (list bytes) :=
  match row with
  | [] => Ok []
  | c :: row' =>
    if bytes_eqb c [] then Err (EMsg "autodetectColumns is enabled, but a column does not have a name.")
    else if existsb (bytes_eqb c) seen then Err (EMsg "autodetectColumns is enabled, but there is a duplicate column.")
    else rlet cs := autodetect row' (seen ++ [c]) in Ok (c :: cs)
  end.

(** *** JSON *)

(** pkg/input/json_record.go:44-74 is the same function as record.GetSubValue,
    except for the texts of errors. *)
Definition json_get (data : list (bytes * value)) (path : bytes) : res value :=
  match path with
  | [] => Err (EMsg "Cannot get the property because it's path is empty.")
  | _ :: _ => get_sub_value (VMap data) (segments path)
  end.

(** pkg/input/json_record.go:30-42 *)
Definition json_record (data : list (bytes * value)) (pos : Z) : rec :=
  mkRec pos (json_get data) (Ok data).

(** *** XML *)

(** pkg/input/xml_config.go:32-40 after validation: a property is a primitive
    with a parser, an array with the configuration of its items, or an object
    with named properties. *)
Inductive xprop :=
| XPrimitive (name xpath parser : bytes)
| XArray (name xpath : bytes) (items : xprop)
| XObject (name xpath : bytes) (props : list xprop).

Definition x_name (c : xprop) : bytes :=
  match c with XPrimitive n _ _ => n | XArray n _ _ => n | XObject n _ _ => n end.

(** What the evaluation of an XPath gives: string, float64, bool, an iterator
    over nodes (given by the texts of their OutputXML), or something else. *)
Inductive xresult := XString (s : bytes) | XNumber (f : spec_float) | XBool (b : bool) | XNodes (l : list bytes) | XOther.

(** The types of parsers recognised by xml_record.go. *)
Inductive xparser := XPString | XPInteger | XPFloat | XPBoolean | XPOther.

Section Xml.
Variable node : Type.
(** xmlquery.QuerySelectorAll and Expr.Evaluate *)
Variable query : node -> bytes -> list node.
Variable evaluate : node -> bytes -> xresult.
(** the list of parsers: type and Parse *)
Variable parsers : list (bytes * (xparser * parser_fun)).
(** the conversion int64(float64) *)
Variable int_of_float : spec_float -> Z.

(** pkg/input/xml_record.go:174-181 *)
Definition handle_string (parser s : bytes) : res value :=
  match mget parsers parser with
  | None => Err (EMsg "The parser was not found.")
  | Some (_, parse) => parse s
  end.

(** pkg/input/xml_record.go:183-196, 198-209, 121-152 *)
Definition handle_number (parser : bytes) (f : spec_float) : res value :=
  match mget parsers parser with
  | None => Err (EMsg "The parser was not found.")
  | Some (XPFloat, _) => Ok (VFloat f)
  | Some (XPInteger, _) => Ok (VInt (int_of_float f))
  | Some _ => Err (EMsg "got a numeric value, but the property does not have a numeric parser")
  end.
Definition handle_bool (parser : bytes) (b : bool) : res value :=
  match mget parsers parser with
  | None => Err (EMsg "The parser was not found.")
  | Some (XPBoolean, _) => Ok (VBool b)
  | Some _ => Err (EMsg "got a boolean value, but the property does not have a boolean parser")
  end.
Definition handle_nodes (parser : bytes) (l : list bytes) : res value :=
  match mget parsers parser with
  | None => Err (EMsg "The parser was not found.")
  | Some (XPString, _) => Ok (VString (List.concat l))
  | Some _ => Err (EMsg "got node(s), but the property does not have a string parser")
  end.

Definition handle_primitive (parser : bytes) (r : xresult) : res value :=
  match r with
  | XString s => handle_string parser s
  | XNumber f => handle_number parser f
  | XBool b => handle_bool parser b
  | XNodes l => handle_nodes parser l
  | XOther => Err (EMsg "returned an unexpected type")
  end.

(** [values[property.Name] = currentValue] for every property in turn. *)
Fixpoint collect (props : list (bytes * res value)) (m : list (bytes * value)) : res (list (bytes * value)) :=
  match props with
  | [] => Ok m
  | (n, r) :: props' => rlet v := r in collect props' (mset m n v)
  end.

(** pkg/input/xml_record.go:48-118 *)
Fixpoint all_values (n : node) (c : xprop) : res value :=
  match c with
  | XPrimitive _ xpath parser => handle_primitive parser (evaluate n xpath)
  | XArray _ xpath items => rlet l := rmapM (fun n' => all_values n' items) (query n xpath) in Ok (VList l)
  | XObject _ xpath props =>
    match query n xpath with
    | [] => Ok VNil
    | [n'] => rlet m := collect (map (fun c' => (x_name c', all_values n' c')) props) [] in Ok (VMap m)
    | _ :: _ :: _ => Err (EMsg "got multiple nodes, but the property has an object type")
    end
  end.

(** pkg/input/xml_record.go:34-46 *)
Definition xml_all (n : node) (props : list xprop) : res (list (bytes * value)) :=
  collect (map (fun c => (x_name c, all_values n c)) props) [].

(** pkg/input/xml_record.go:211-303; the first property of that name. *)
Fixpoint x_sub_value (n : node) (c : xprop) (path : list bytes) {struct c} : res value :=
  match c with
  | XPrimitive _ xpath parser =>
    match evaluate n xpath with
    | XString s => rlet v := handle_string parser s in get_sub_value v path
    | r => match path with
           | [] => handle_primitive parser r
           | _ :: _ => Err (EMsg "Cannot get sub-path because the value is primitive.")
           end
    end
  | XArray _ xpath items =>
    match path with
    | [] => all_values n c
    | k :: path' =>
      match atoi k with
      | Ok i =>
        let nodes := query n xpath in
        if zlen nodes <=? i then Ok VNil else rlet n' := item_at nodes i in x_sub_value n' items path'
      | Err _ => Err (EMsg "Cannot get sub-path because the value is an array")
      | Panic => Panic
      | NoFuel => NoFuel
      end
    end
  | XObject _ xpath props =>
    match path with
    | [] => all_values n c
    | k :: path' =>
      match query n xpath with
      | [] => Ok VNil
      | [n'] =>
        (fix find (props : list xprop) : res value :=
           match props with
           | [] => Ok VNil
           | c' :: props' => if bytes_eqb (x_name c') k then x_sub_value n' c' path' else find props'
           end) props
      | _ :: _ :: _ => Err (EMsg "got multiple nodes, but the property has an object type")
      end
    end
  end.

(** pkg/input/xml_record.go:154-172 *)
Definition xml_get (n : node) (props : list xprop) (path : bytes) : res value :=
  match path with
  | [] => Err (EMsg "Cannot get the property because it's path is empty.")
  | _ :: _ =>
    match segments path with
    | [] => Panic
    | k :: rest =>
      match find (fun c => bytes_eqb (x_name c) k) props with
      | None => Err (EMsg "The path does not exist in this record.")
      | Some c => x_sub_value n c rest
      end
    end
  end.

Definition xml_record (n : node) (props : list xprop) (pos : Z) : rec :=
  mkRec pos (xml_get n props) (xml_all n props).
End Xml.
