(** Documents for the examples of PropYaml.v. *)
From Coq Require Import List ZArith Bool String.
From Coq Require Import Strings.Byte Floats.SpecFloat.
From Verif Require Import Base Value Codec Output Config Yaml.
Import ListNotations.
Open Scope Z_scope.

Definition txt (s : string) : node := YScalar (lit s) RText.
Definition num (s : string) (z : Z) : node := YScalar (lit s) (RInt z).
Definition yes : node := YScalar (lit "true") (RBool true).
Definition dict (l : list (string * node)) : node := YMap (map (fun kn => (txt (fst kn), snd kn)) l).
Definition http_service (output path : string) : node :=
  YSeq [dict [("name", txt "httpService"); ("type", txt "http"); ("http", dict [("listen", txt ":80")]);
              ("routes", YSeq [dict [("path", txt path); ("output", txt output)]])]]%string.

(** examples/countries/config.yaml *)
Definition countries : node := dict
  [("inputs", YSeq [dict [("name", txt "countries"); ("type", txt "csv"); ("path", txt "/var/countries.csv"); ("ignoreFirstRow", yes);
                          ("autodetectColumns", yes); ("delimiter", txt ";")]]);
   ("outputs", YSeq [dict [("name", txt "countries"); ("type", txt "jsonArray"); ("input", txt "countries");
                           ("limit", dict [("default", num "1000" 1000); ("max", num "1000" 1000)]);
                           ("parameters", dict [("continentCode", dict [("property", txt "continentCode")]);
                                                ("countryCode", dict [("property", txt "countryCode")])])]]);
   ("services", http_service "countries" "/")]%string.
Definition countries_parsed : parsed := mkParsed []
  [Some (CCsv (lit "countries") (lit "/var/countries.csv") None true true (lit ";") [])] []
  [Some (mkServiceConfig (lit "httpService") (Some (lit ":80")) None [] [Some (lit "countries", lit "/")])]
  [Some (CArray (lit "countries") (lit "countries") 1000 1000 [] []
     [(lit "continentCode", Some (mkParam (lit "continentCode") [] [])); (lit "countryCode", Some (mkParam (lit "countryCode") [] []))] [])].

(** A document with nested properties and relationships. *)
Definition nested : node := dict
  [("inputs", YSeq [dict [("name", txt "users"); ("type", txt "xml"); ("path", txt "./users.xml"); ("recordXpath", txt "//User");
     ("properties", YSeq [dict [("name", txt "roleIds"); ("type", txt "array"); ("xpath", txt "/Roles/Role"); ("items", dict [("parser", txt "integer")])];
        dict [("name", txt "manager"); ("type", txt "object"); ("xpath", txt "/Manager");
              ("properties", YSeq [dict [("name", txt "id"); ("parser", txt "integer"); ("xpath", txt "/@Id")]])]])]]);
   ("indexes", YSeq [dict [("name", txt "userNames"); ("type", txt "fts5"); ("dsn", txt ":memory:"); ("input", txt "users");
                           ("prefix", YSeq [num "2" 2; num "3" 3]); ("properties", YSeq [txt "name"])]]);
   ("outputs", YSeq [dict [("name", txt "user"); ("type", txt "jsonObject"); ("input", txt "users"); ("parameters", dict []);
     ("relationships", dict [("team", dict [("input", txt "users"); ("isArray", yes); ("limit", num "5" 5);
        ("match", YSeq [dict [("parentProperty", txt "id"); ("childProperty", txt "managerId")]]);
        ("sort", YSeq [dict [("property", txt "id"); ("ascending", YScalar (lit "no") (RBool false))]]);
        ("relationships", dict [("boss", dict [("input", txt "users");
            ("match", YSeq [dict [("parentProperty", txt "managerId"); ("childProperty", txt "id")]])])])])])]])]%string.
Definition nested_parsed : parsed := mkParsed []
  [Some (CXml (lit "users") (lit "./users.xml") None
     [Some (mkXmlProp (lit "roleIds") (lit "array") [] (lit "/Roles/Role") (Some (mkXmlProp [] [] (lit "integer") [] None [])) []);
      Some (mkXmlProp (lit "manager") (lit "object") [] (lit "/Manager") None
        [Some (mkXmlProp (lit "id") [] (lit "integer") (lit "/@Id") None [])])] (lit "//User"))]
  [Some (CFts5 (lit "userNames") (lit ":memory:") (lit "users") [2; 3] [] [lit "name"])] []
  [Some (CObject (lit "user") (lit "users") []
     [(lit "team", Some (mkRawRel (lit "users") true 5 [Some (lit "id", Some false)] [Some (lit "id", lit "managerId", [])]
        [(lit "boss", Some (mkRawRel (lit "users") false 0 [] [Some (lit "managerId", lit "id", [])] []))]))])].

(** The example of docs/schema/indexes/fts5.yaml:14-24. *)
Definition documented_fts5 : node := dict
  [("name", txt "articles"); ("type", txt "fts5"); ("dsn", txt "./articles.rodb"); ("input", txt "articles");
   ("tokenize", YSeq [num "2" 2; num "3" 3]); ("tokenize", txt "unicode61 remove_diacritics 0 tokenchars '-_'");
   ("properties", YSeq [txt "id"; txt "title"; txt "content"])]%string.

(** An object output with the limit of an array output. *)
Definition object_with_limit : node := dict
  [("outputs", YSeq [dict [("name", txt "user"); ("type", txt "jsonObject"); ("input", txt "users"); ("limit", dict [("max", num "10" 10)]);
                           ("parameters", dict [])]])]%string.
Definition items_of_anything : node := dict
  [("inputs", YSeq [dict [("name", txt "users"); ("type", txt "xml"); ("path", txt "./users.xml"); ("recordXpath", txt "//User");
     ("properties", YSeq [dict [("name", txt "roleIds"); ("type", txt "array"); ("xpath", txt "/Roles/Role"); ("items", dict [("parsers", txt "integer")])]])]])]%string.

Definition one_parser (l : list (string * node)) : node := dict [("parsers", YSeq [dict l])]%string.
Definition one_service (http : node) : node := dict
  [("services", YSeq [dict [("name", txt "httpService"); ("type", txt "http"); ("http", http)]])]%string.
(** 2.7 *)
Definition two_point_seven : node := YScalar (lit "2.7") (RFloat (S754_finite false 6079859496950170 (-51))).
Definition one_limit (limit : node) : node := dict
  [("outputs", YSeq [dict [("name", txt "users"); ("type", txt "jsonArray"); ("limit", dict [("max", limit)])]])]%string.
