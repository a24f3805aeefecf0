# Formal model of rodb: design

The Go code in /repo is modelled by hand in Rocq (Coq 8.16.1), function by
function, in `rocq/theories/`.  Every model definition cites the file and lines
it models and names its simplifications.  Property theorems live in
`Prop*.v` files which contain nothing but the statements, closed by `exact`,
with `Print Assumptions` beneath, plus the concrete examples that meet their
hypotheses and the witnesses of the refuted variants.  `Spec*.v` files hold the
small specifications the statements are written with; `*Facts*.v` the proofs.

## Trusted base

* Coq's kernel (8.16.1) and `vm_compute`.
* `Print Assumptions` output of every theorem: expected "Closed under the global
  context" (no axioms, not even stdlib ones).  Exceptions are listed at the end.
* The hand translation Go -> Gallina of the functions listed per file below.
* Everything listed under "Not modelled".

## Modelling conventions

* bytes are `Byte.byte`, byte slices/strings are `list byte`, offsets are `Z`;
  the conversions to and from 64-bit fields are explicit (mod 2^64).
* Go results are `res A := Ok a | Err e | Panic | NoFuel`.  Loops without a
  structural measure take fuel; running out is the distinct value `NoFuel`, and
  theorems give a fuel bound (or quantify over "all large enough fuel").
* A file is a byte list; `WriteAt`/`ReadAt` are modelled as on a POSIX file.  The
  list of all `WriteAt` calls is kept as a ghost log: a crash point is a prefix
  of that log (optionally with the last write torn).
* Go maps are association lists; a traversal in random order is a traversal of
  an arbitrary permutation.
* Iterators are lists of items (positions or an error) with an explicit state.
* Goroutines are state machines stepping under an arbitrary schedule.
* External libraries (regexp engine subset, csv/json/xml decoders, charset
  decoders, SQLite, strings.ToLower, strconv.ParseFloat) are either re-modelled
  from their documentation (said so in the file) or Section variables, i.e.
  universally quantified in the final theorem.

## Plan per property

| id | what is modelled | how it is proved |
|----|------------------|------------------|
| C01 | wildcard stream, nodes, positions, createIndex, GetSequence | three refinement layers: bytes -> heap of cells -> radix tree -> substring specification; induction over the insertion history |
| C02 | Wildcard.GetRecordPositions + join | C01 + C09 |
| C03 | createIndex then loadIndex on the file left by it | stream refinement: after the last flush file = flat contents |
| C04 | write log of createIndex | every prefix of the log before the final metadata write leaves completed=0 => rejected; between that write and the last flush: refuted by a concrete history |
| C05 | metadata Serialize/Unserialize/AssertValid | iff characterisation; property names are not stored: refuted part |
| C06 | Stream | simulation by a flat byte array |
| C07 | serialisers | arithmetic on big endian encodings |
| C08 | LoadMetadata on any bytes | refuted by a count field that is negative; totality otherwise |
| C09 | JoinPositionIterators | induction on the iterators, multiset intersection |
| C10 | getFiltersPerIndex with arbitrary permutation | permutation argument; refuted for two parameters on one property |
| C11 | map index | induction over records |
| C12 | addValueToIndex on arrays | refuted (panic / error) |
| C13 | noop index | induction over records |
| C14 | map vs noop | corollary of C11, C13 |
| C15 | sqlite.go as programs that send SQL text to a model of SQLite | the text is parsed back, rows are related to records; what is found is stated outright (`SpecSqlFind.v`: numbers by value, texts by collation) and compared with the default index; the comparison is refuted for null filters and mixed numbers |
| C16 | the same, with every state between two statements | invariant over all histories of starts of several indexes (Hoare-style rules for programs) |
| C17 | SanitizeIdentifier, SQL identifier lexer | injectivity, lexer round trip; index identifier collision refuted |
| C18 | JsonArray.Handle row loop | skipn/firstn characterisation |
| C19 | getLimit/getOffset | case analysis |
| C20 | JsonArray.Handle with all kinds of indexes | composition |
| C21 | JsonObject.Handle | composition |
| C22 | handlers as traces of response actions | case analysis/induction |
| C23 | JSON encoder on values | refuted by NaN; proved for encodable values |
| C24 | loadRelationships | induction on relationship tree |
| C25 | loadRelationships under permutations | proved under a non-interference hypothesis, refuted in general |
| C26 | Sort/Less, and sort.Sort of Go 1.16 (`GoSort.v`: quick sort, heap sort, insertion sort in an array) | every step is a permutation of a part of the array; invariants of partition, heap and sorted prefix; refuted for null values and for stability |
| C27 | Compare | case analysis |
| C28 | getters | induction on paths; negative index refuted |
| C29 | Atoi, RemoveCharacters | induction on digits |
| C30 | boolean parser, QuoteMeta, regexp subset | regexp semantics |
| C31 | split, Regexp.Split (`RegexSplit.v`) | induction; pieces between the first matches; cyclic config refuted |
| C32 | integer and float patterns | regexp semantics; overflow, separators of several characters refuted |
| C33 | createPathRegexp, getParams | regexp semantics with captures; refuted after a boolean |
| C34 | getParams | map update reasoning |
| C35 | getMatchingRoute | list reasoning; unescaped literals refuted |
| C36 | encoding/csv over bufio over a file | refinement: buffered reader -> position in the file -> rows |
| C37 | encoding/json's scanner and decoder over a file | simulation of the RFC 8259 grammar by the scanner; stray bracket refuted |
| C38 | locked Get as state machine | invariant over all schedules |
| C39 | shared decoder as state machine | refuted by a schedule |
| C40 | watcher loop on event list | induction; rename refuted |
| C41 | handle accounting | refuted for limited reads, proved for exhausted iterators |
| C42 | Validate functions | induction on config |
| C43 | Validate with file system oracle | refuted (stat error) |
| C44 | bufio model | invariant |
| C45 | collation list | refuted for rtrim |
| C46 | config maps | list reasoning |
| C47 | GetAddress | case analysis |
| C48 | csv record | list reasoning |
| C49 | encoding/csv on texts written by RFC 4180 | induction over rows and cells |
| C50 | Validate of parameters and relationships | induction on config; index named default refuted |
| C51 | Validate functions | list reasoning; two cases refuted |
| C52 | cmd/main.go: creation of the objects | induction; graphql and path parameters refuted |
| C53 | Validate functions, documented defaults | induction on config |
| C54 | sqlite.go with two configurations | as C15; refuted for new properties |
| C55 | rows.Next with failures | as C15; refuted, failures are not reported |
| C56 | pool of connections of database/sql | simulation of independent iterators, a bound on the connections; refuted for :memory: |
| C57 | xml.go over encoding/xml and xmlquery's StreamParser | invariant of the tree under construction, induction over documents; refuted for other XPaths and shapes |
| C58 | main, the signal goroutine, servers, requests (`Lifecycle.v`) | invariants over all interleavings (what Shutdown has waited for too), a measure; two cases refuted |
| C59 | as C58 | invariant of main; refuted for several servers |
| C60 | os.Expand on the configuration file (`Expand.v`) | induction over the division of a text into pieces; shell parameters and braces refuted |
| C61 | strconv.ParseFloat (`FloatText.v`), float parser | the result is compared with every other float64, in integers of unit 2^-1074; induction over texts; other notations refuted |
| C62 | encoding/json's decoder (`JsonDecode.v`): json.Unmarshal and Decoder.Decode | the scanner accepts exactly the texts of a grammar (a lenient variant of the one of C36); simulation of the recursive decoder along that grammar; round trip with the encoder |
| C63 | encoding/json's floatEncoder and strconv.AppendFloat (`FloatFormat.v`) | the interval of the numbers rounded to a float64; invariant of the loop of roundShortest; counting digits |
| C64 | the whole program (`System.v`): configuration and files to responses | composition of C37, C42, C46, C49, C51 and the theorems on outputs; transport of filters, joins and orders from records to rows |
| C65 | yaml.v2's strict decoder and the UnmarshalYAML methods (`Yaml.v`) | a specification of each kind of object by its attributes, exactness in both directions by induction over nodes; docs/schema as data, induction over schemas; the published schema refuted |
| C66 | Config.v (all the Validate methods) against the rules of `SpecAccept.v` | equivalence, rule by rule, by induction on properties and relationships; refuted for three rules of the documentation |
| C67 | System.v, from the configuration to the services and indexes | progress: each step of `boot` succeeds; opening one index keeps what the others in the database need |
| C68 | System.v (`boot_leaving`) | what a start leaves can be started on again (invariant `startable`), induction on the number of starts; stopped starts (SpecStopped.v): every state of every start of an index keeps `prepared` for all of them, and an unfinished wildcard file makes the start fail (C04) |
| C69 | System.v, every request to a started program | no input, parser or index of a started program panics or runs out of fuel (`robust`, SpecRobust.v), then C22 and C23; the numbers of JSON files are finite by induction on the decoder; refuted for negative path parts |
| C70 | util.TrackProgress (`Progress.v`) | each of the three float64 operations keeps the order and is within 2^-52 of the exact result (from the specification of rounding of C61); invariant of the closure's nextProgress; refuted as the exact number of percents |

## Parameters of the theorems (oracles)

| parameter | stands for | assumed |
|-----------|------------|---------|
| `lower` | strings.ToLower | nothing (any function) |
| `hidden_ok`, `odd_uint`, `odd_int` | whether yaml.v2 can set an internal field (a logger, a compiled expression) from a node; Go's conversion of floats out of range to integers | nothing (any function) |
| order of maps (`order`) | Go's random map iteration | a permutation of the entries at every visit |
| `e_sort` | package sort (`go_sort` of GoSort.v fulfils it, C26_contract; a Get that panics while sorting is read as null in Sort.v; C69 excludes it by the paths it allows) | the result is a permutation, and sorted when the comparison is a strict weak order |
| `parse_float`, `json_decode`, `decode_charset`, `regexp_split` | strconv.ParseFloat (modelled for C32 and C61), json.Unmarshal (modelled for C62), golang.org/x/text decoders, Regexp.Split (modelled for C31) | they return (no panic) where the statement says so |
| `fmt_float` | strconv.AppendFloat of encoding/json (modelled for C62 and C63) | the text of a JSON number for finite numbers, where the statement says so |
| `err_text`, `write_ok` | error.Error, whether ResponseWriter.Write succeeds | nothing |
| `xparser`, `xresult` | compiled xpath expressions and what they give on a node | nothing (any result) |
| `fs_ops`, `notice` | changes of a file and the events fsnotify gives for them | see Util.v |
| `rq_query` | pairs parsed by net/url | nothing |
| `reset`, `transform` | a charset decoder of golang.org/x/text | nothing, or independence of its state where stated |
| `chunk`, `cap` | bytes given by each read(2), size of the bufio buffer | at least one byte per read; the file does not change while it is read |
| `stat` | os.Stat: a file, a directory, does not exist, another error | nothing; no other error where the statement says so |
| `regexp_ok`, `xpath_ok` | whether regexp.Compile and xpath.Compile succeed | nothing |
| `upper`, `rune_upper` | strings.ToUpper, unicode.ToUpper (Config.v: `to_upper`) | nothing |
| `new_charset`, `open_file`, `first_row`, `build_index`, `listen` | the steps of start-up outside the configuration (Start.v) | nothing, or success (`possible`) |
| `visit` | the order and the failures with which SQLite returns rows | every row once (`every_row`), only existing rows (`only_rows`), or all rows in the order of insertion (`in_order`), where stated |
| `pick` | which free connection database/sql takes | one of the free ones |
| `fts_ok`, `fts_match` | whether FTS5 accepts the options of a table; the rows of a MATCH | nothing; C20_fts_index_suits and C64 ask that a table is searched row by row as `F : fulltext` tells (`searched_by`), which depends on the columns, the options, the values of the row and the expression only |
| `csv_state`, `json_state` | the shared reader of each input when it is used (System.v) | a state that the program can leave it in (`used`); nothing for JSON |
| `xml` (`xml_package`, XmlInput.v) | encoding/xml's tokens of a file, XPath on a record, int64(float64), and the shared parser of each XML input, in System.v | C64: tokens are not empty and cover the file; XPaths do not leave the record; the parser is in a state that reading records leaves it in |
| `databases` | the databases before the start, by DSN, in System.v | C64 asks that the tables of each SQLite index are absent, or as earlier starts left them for the same data, finished or stopped at any statement (`prepared`); otherwise C16 and C54 apply |
| `lower`, `index_file` | strings.ToLower; the files of the wildcard indexes before the start, in System.v | nothing; C64 asks that an existing file is the one that an earlier creation wrote for the same data (C03), otherwise C05 and C08 apply |
| records, inputs | `in_iter`, `in_get` of the readers | `input_ok`: reading again at a position gives the record found there |

The regular expressions of routes are modelled in `Regex.v`: the part of the Go
syntax that createPathRegexp can produce from clear configurations (literals,
escapes, classes, groups, alternation, `?`, `+`, `*`, `.`, `^`, `$`), with
leftmost-first matching by a list-of-successes matcher over decoded runes.
Everything else (flags, repetition counts, named classes, repetition of an
expression that can be empty, ...) is the explicit error `unmodelled`, so no
theorem speaks about it.

`XmlStream.v` models encoding/xml's Decoder (Token, rawToken, popElement, not
strict) and xmlquery 1.3.6's StreamParser (parse, Read). Neither source is available
here: they are modelled from memory, and trusted. A file is a list of
well-formed tokens with their lengths; a seek to another place than between two
tokens is the explicit error `unmodelled`. A converter of character sets
(RProc with `recode`) takes a fixed number of tokens in advance (`chunk`).

`Lifecycle.v` models the process as events in any order. From net/http it
takes that Serve returns ErrServerClosed as soon as Shutdown is called (any time
later in the model), that Shutdown returns when no request is being served, and
that no request is taken after it. An error of Shutdown, keep-alive connections and
the second signal (ignored by the code) are left out.

`FloatText.v` models strconv.ParseFloat of Go 1.16: the syntax from memory of its
source (special, readFloat, underscoreOK), the conversion as exact rounding to
nearest, ties to even, which its documentation promises. C61 proves that the
integer arithmetic written there is this rounding (compared with every float64 of the
standard library's `SpecFloat`).

`GoSort.v` models sort.Sort of Go 1.16 from memory of its source (quickSort with doPivot and medianOfThree,
heapSort with siftDown, insertionSort), on an array with the indices that the source uses; an index out of range is
a panic. The theorems on outputs are for any algorithm with its contract.

`Progress.v` models util.TrackProgress. The conversion of an int64, the quotient and the product of float64 are
the roundings of `FloatText.v`, as IEEE 754 asks; a tick of the clock is a nanosecond and `now` may be any number.

`JsonDecode.v` models the decoder of encoding/json of Go 1.16 from memory of its sources:
checkValid, the recursive functions for interface{} values, unquote and getu4,
convertNumber with the ParseFloat of `FloatText.v`. It reuses the scanner of
`JsonReader.v`. Decoding into a map[string]interface{} is modelled by what object does for
such a map. `SpecJsonDecode.v` has the accepted texts as a grammar of its own. C62 replaces
the oracles `unmarshal` (C37, C38) and `json_decode` by these functions.

`FloatFormat.v` models floatEncoder of encoding/json and strconv.AppendFloat with precision -1,
from memory: roundShortest with numbers in place of texts of digits, and %e and %f. Go 1.16 first
tries a faster algorithm (Grisu3, which gives up when it is not sure of the digits); that it gives the same
digits is assumed. C63 and C62 replace the oracle `fmt_float` by this function.

`Expand.v` models os.Expand and getShellName of Go 1.17 from memory; os.Getenv is any
function.

`Sql.v` is a model of the part of SQLite 3.36 (go-sqlite3 1.14.8) that /repo uses,
written from its documentation and trusted like the rest of the model: tokens
(quoted identifiers with doubled quotes, literals, numbers, words, symbols), the
grammar of the statements sent, names compared without regard to ASCII case in
statements but exactly in `WHERE name = ...`, a quoted name without a column taken
for a string, `printf('%w')` cut at a NUL, storage classes and their comparison
(NULL equals nothing, integers and reals by value, no affinity for BLOB columns,
the collations BINARY, NOCASE and RTRIM), conversion of Go values to parameters.
The options of an FTS5 table are kept with its columns; rows are matched by an oracle.
A statement either happens or fails without effect; the crash points of C16 lie
between statements (with `journal_mode = OFF` a stop inside a statement can
destroy a database file, which is not modelled). Runs of white space in the
texts, the two pragmas, and a statement's preparation are simplified as written
at the top of `SqlIndex.v`.

`System.v` puts the models together: `boot` goes from a validated configuration and the
contents of files (`files : path -> contents`) to the routes and the objects of the
outputs, with the readers of CSV, JSON and XML files (for XML, the XPaths of names separated by / and //
are read by `xpath_steps`), the parsers with the ParseFloat and the JSON
decoder above, and the map, wildcard, SQLite and full-text indexes built by reading their inputs, the
wildcard indexes also loaded from a file, the others also found in their databases. Several indexes
can share a database; they are created in the order of the configuration. The files of wildcard
indexes are handed from one index to the next, so that two indexes can use one file. `boot_leaving` also gives
the databases and these files as they are after the start. `SpecStart.v` says what the start needs (`startable`, C67):
what it leaves meets this again (C68). `PropSystemWhole.v` composes C64, C67 and
GoSort.v: from an accepted configuration and the files to the answers. `SpecStopped.v` says what starts
that are stopped leave in the databases and in the wildcard files, except between the mark of completion and the last flush of a wildcard file. Databases in memory are not
in this model (see C56). C64 asks that SQLite gives rows in the order of insertion, which it does in fact for
these queries (an equality on an indexed column follows the rowids) but which SQL does not
promise; C20_sqlite_order_refuted shows that records are lost otherwise. Its reference
semantics (`SpecSystem.v`) knows no positions, indexes or readers: a file is a table of rows
(`provides`; for XML files, those of C57 in which every element is closed, with values as in
`SpecXmlValue.v`), a request selects the rows with some values (`asked`, `meets`; per index by equality, by
the parts that a string contains, or as SQLite compares, `kind_of`), a
relationship adds rows of another table (`joined`). C64 is the theorem that
the response of the one denotes the result of the other. C64_refused and C64_no_route are the other requests: values
that are refused (`refused`) are answered by 500 and addresses without a route by 404, both with an
error in JSON; C64_refused assumes that charset decoders give a value or a message of their
own, not io.EOF and not a record-not-found error. Files do not change while the program runs.
`SystemExample.v` runs the whole model on an example by computation.

`Yaml.v` models gopkg.in/yaml.v2 2.4.0's strict decoding, from memory, on nodes: scanning
the text of a document is not modelled, each scalar comes with the value it is resolved
to. Merge keys (`<<`) give the explicit error "unmodelled"; there are no explicit tags. `SpecYaml.v`
says which objects a document describes, per kind of object, without the
table of fields and the generic decoder of the model. `SpecSchema.v` transcribes docs/schema; its
parameter `published` chooses between the schema as it is and as it is meant
(with the type of array outputs corrected, and nested properties and relationships
constrained as on the first level). JSON-schema integers are the ones written as such (`3`, not `3.0`),
within int64 (`machine_integers`).

## Findings (refuted variants)

Every item is a theorem with a computed witness; the Go code behaves so
according to the model.

* C01 the empty query finds nothing although every value contains it.
* C04 the completed flag is written before the last flush: a crash in between
  leaves a truncated index that is accepted.
* C05 the property names are not stored: an index of other properties is
  accepted.
* C08 a negative or huge count of root nodes in the file panics; a root offset 0
  panics on the first query.
* C10 two parameters on one property of one index: which one wins depends on the
  order of a Go map.
* C12 array values: the map index panics (unhashable key), the wildcard index
  fails.
* C13 comparing an array with an array panics.
* C18 a default limit of 2^63 and more gives empty pages.
* C22 a list as parent value of a relationship panics.
* C24 a relationship with a limit of 2^63 or more panics (`make` with a negative capacity); one record without
  the parent property makes the whole response an error.
* C23 NaN and infinities cannot be encoded after the header was sent.
* C25 relationships which overwrite columns read by others depend on the order of
  a Go map.
* C26/C27 null and NaN are not ordered. sort.Sort is not stable: records with equal values change places.
* C28 a negative index in a path panics; a column whose name contains a dot cannot
  be read; an unknown column is an error for CSV but null for JSON.
* C30 a boolean value U+FFFD: its pattern matches any invalid byte.
* C31 split parsers in a cycle never end. A delimiter that matches the empty text divides between
  all characters (`C31_empty_match_refuted`).
* C32 text accepted by the pattern of an integer but not by its parser: no digit
  left, out of range, ranges made by "-" among the ignored characters. A decimal
  separator of several characters is one of them in the pattern but the whole text in the
  parser: no number with decimals can be written in such a route.
* C33 a parameter after a boolean or float parameter gets the text of another
  group.
* C35 literal text of routes is a regular expression: "." matches anything,
  brackets around a placeholder make the handler panic, a path with brackets does not
  match itself.
* C39 two goroutines parsing with one converting string parser share the state of
  the decoder: with ISO-2022-JP one gets characters of the set chosen by the other.
* C40 a file replaced by renaming another one over it is not noticed.
* C37 a stray `]` or `}` between documents silently ends the iteration of a JSON
  file.
* C41 a full page, a found object, a join of two indexes and an error leave files or
  cursors open.
* C49 a line break CR LF in a quoted cell is read as LF; a header with an
  unexpected number of cells makes the input unusable, any other row is only
  warned about.
* C43 os.Stat failing with anything but not-exist (a directory which cannot be
  searched) leaves a nil FileInfo whose IsDir is called; null entries of lists and
  maps are dereferenced.
* C45 the documented rtrim is refused, the misspelt rtirm and a dotless i are
  accepted.
* C50 a user index named default, built over one input, is asked for the records of
  the outputs of other inputs.
* C51 one parameter can be limit and offset; two parameters can filter one property.
* C15 a SQLite index finds nothing for a null filter, and 3.0 or true for the filters
  3 and 1, unlike the default index; a list value stops the creation; a collation
  RTIRM passes validation and stops it too.
* C17 the indexes `a` (property `b_c`) and `a_b` (property `c`) want the same column
  index, the second one cannot be created; an index whose name differs from another
  one's in case only fails to start and marks the other one as incomplete; a NUL in
  the name makes both tables of the index the same one.
* C20 the query of a SQLite index does not ask for an order, but the join of two indexes
  needs the positions in increasing order: in another order records are lost.
* C69 a parameter or relationship whose property has a negative number ("cities.-1") is accepted, and a request for it
  panics.
* C70 29 of 100 bytes are shown as 28%, and the last byte but one of 2^60 as 100%.
* C54 a property added to an existing SQLite index passes the check at start-up and
  finds nothing, or every record if the filter is the name of the missing column.
* C55 rows.Err is not called: an error in the middle of the rows ends the answer
  silently.
* C56 with the documented dsn ":memory:" each connection is a database of its own: while
  the rows of one query are not read to their end, every other query of the index
  fails (no such table). One object found through such an index makes it useless
  until the next restart.
* C57 an XML input shares one parser between calls that seek in its file. With an
  absolute record XPath (/root/item) only the first call for the first record is
  answered; with records under different parents a call for a later record breaks
  the input for all calls to come; with a declared charset the positions are wrong
  and seeks are ignored, so that other records are answered. Every call for
  the first record leaves elements open in the decoder (its memory grows).
* C58 main waits for Serve, which returns as soon as Shutdown is called, and not for
  Shutdown: the resources are closed and the process exits with status 0 while requests
  are being served. When a server has failed Close gives up at its service: the others
  go on, and as the one signal is consumed the process cannot be interrupted again.
* C59 the failure of https (an unreadable certificate) is not seen while http of the
  same service works; with several services it depends on the order of a map whether
  a failure is seen.
* C60 besides variables, `$1`, `$$`, `$-` and the like are taken out of the
  configuration (regular expressions of split parsers, route paths), so is `${` without an end; `$a` cannot
  be written in the file except by YAML escapes ("\x24a"). Nothing of this is documented.
* C63 numbers of 16 digits, and of two digits below 2^-1022, are not served as they were written
  (9007199254740993, 4.8e-324).
* C62 an integer above 2^53 in JSON data is silently rounded (9007199254740993 is served as
  9007199254740992), of two members with one name the first is lost, invalid UTF-8 and half
  surrogate pairs become U+FFFD, and the document `null` is an empty record.
* C61 in a text of 200008 bytes the exponent e200000 is cut off, and 1 is read as 0
  (`C61_long_refuted`); shorter texts are not affected.
* C61 a float column accepts "nan", "Infinity", "0x1p-2" and "1_000"; NaN and infinities then
  make the JSON of the response fail (C23). With the separator "," the text "1.234" is read
  as 1.234, like "1,234".
* C65 the published schema gives array outputs the type "jsonObject": no configuration with a list
  conforms to it, and an object output with a limit does but is refused; nested items and relationships are not
  constrained by it. The documented example of the fts5 index is refused (it sets `tokenize` twice). `logger: null`
  and outputs of type graphql are accepted though not documented. A limit of 2.7 is
  read as 2. `http: Null` enables HTTP, `http: null` does not.
* C66 an index without properties passes validation though the schema asks for one, and the
  delimiter of a CSV file must be an ASCII character (the length in bytes is checked).
* C67 two wildcard indexes can have the same path, which the validation does not forbid: the one
  created second opens the file of the first, whose properties are not compared, and answers from
  the values of the first one's properties.
* C52 graphql outputs and routes with parameters unknown to the output pass
  validation and fail at start-up.

## Not modelled

Logging, HTTP wire protocol/TLS, the scanner of YAML (texts to nodes), SQLite's and
FTS5's internals, charset tables, XPath evaluation, file permissions, malformed XML,
XML namespaces and entities.


## Library axioms

`Print Assumptions` says "Closed under the global context" under every theorem.
`coqchk -o` additionally lists the axioms of loaded libraries
(`Coq.ssr.ssrunder.Under_rel.*`, a module parameter of the standard library
loaded through lia's dependencies); no theorem depends on them.
