#!/usr/bin/env python3
"""Writes properties.jsonl.  One tuple per property."""
import json, os
P = []
def p(title, statement, quantifier, why, anchors):
    P.append(dict(id="C%02d" % (len(P)+1), title=title, statement=statement,
                  quantifier=quantifier, why_tests_cant=why, anchors=anchors))

p("Substring search with a wildcard index is exact",
  "After a wildcard index has been created over an input, looking up a non-empty string on an indexed property yields exactly the positions of the records whose value for that property contains the string, each once, in increasing order; with ignoreCase both sides are lower-cased first.",
  "every list of records with increasing positions, every string value (any bytes, any length), every non-empty search string",
  "The index is a radix tree of all suffixes built by splitting nodes; whether a lookup is right depends on the whole insertion history, of which tests only cover a few words.",
  ["pkg/index/wildcard/node.go: addSequence, FindChildByPrefix, GetSequence, AddAllSequences", "pkg/index/wildcard.go: createIndex, addValueToIndex, GetRecordPositions"])
p("Wildcard filters on several properties are a conjunction",
  "Looking up several properties at once in a wildcard index yields exactly the positions of the records matching every single filter, in increasing order, whatever order the filters are visited in.",
  "every dataset, every non-empty set of filters, every map iteration order",
  "Go randomises map iteration; tests see one order and a handful of filters.",
  ["pkg/index/wildcard.go: GetRecordPositions", "pkg/input/record/join.go: JoinPositionIterators"])
p("A reloaded wildcard index answers like the freshly built one",
  "After an index file was completely written, opening it again with the same input and configuration succeeds and every lookup gives the same answer as the instance that built it.",
  "every dataset, every lookup, every buffer flush pattern the dataset induces",
  "Depends on which bytes were flushed, overwritten in place or still buffered at every step.",
  ["pkg/index/wildcard.go: createIndex, loadIndex", "pkg/index/wildcard/metadata.go", "pkg/index/wildcard/stream.go"])
p("An interrupted wildcard indexing is never mistaken for a finished one",
  "If the process stops at any point before createIndex has finished writing, the file that is left behind is rejected at the next start.",
  "every dataset, every crash point between two file writes (and inside a write)",
  "Crash points cannot be enumerated by unit tests.",
  ["pkg/index/wildcard.go: createIndex lines 127-134", "pkg/index/wildcard/metadata.go: Save, AssertValid", "pkg/index/wildcard/stream.go: Replace, Flush"])
p("An outdated or foreign wildcard index file is rejected",
  "Opening an existing index file succeeds only if it has the expected magic bytes and version, was completed, and was produced for the same input modification time and size, the same ignoreCase setting and the same indexed properties.",
  "every metadata content and every expected configuration",
  "Combinations of stale fields are unbounded; tests only flip each field once.",
  ["pkg/index/wildcard/metadata.go: AssertValid, Unserialize"])
p("Index storage behaves as a flat byte array",
  "For the index storage layer, reading any range returns the bytes most recently written there, in file or in the write-back buffer, and sizes/offsets returned by appends are those of a plain growing byte array.",
  "every sequence of add/replace/flush/read operations, every buffer size, every range straddling the buffer boundary",
  "Boundary straddling depends on the entire history of writes.",
  ["pkg/index/wildcard/stream.go: Get, Add, Replace, Flush"])
p("Index records survive serialisation",
  "A tree node, a position link and the metadata read back after being written have identical fields.",
  "every field value representable in the Go types (including negative and extreme int64)",
  "2^64 values per field.",
  ["pkg/index/wildcard/node.go: Serialize, Unserialize", "pkg/index/wildcard/position.go: Serialize, Unserialize", "pkg/index/wildcard/metadata.go: Serialize, Unserialize"])
p("Opening an arbitrary file as a wildcard index never crashes the process",
  "When the configured index path designates an existing file of any content, opening it either succeeds or returns an error; it never panics.",
  "every file content",
  "Arbitrary bytes.",
  ["pkg/index/wildcard/metadata.go: Unserialize line 159", "pkg/index/wildcard.go: loadIndex"])
p("Joining position iterators computes the intersection",
  "Given position iterators that are each sorted, the joined iterator yields exactly the positions present in all of them, sorted, without inventing or losing any, then signals the end, and keeps signalling the end.",
  "any number of iterators, any sorted contents (including repeated positions), any number of calls",
  "The iterator keeps state between calls and drops values at each call; correctness depends on the complete interleaving.",
  ["pkg/input/record/join.go: JoinPositionIterators", "pkg/input/record/record.go: PositionIterator contract"])
p("Request results do not depend on map iteration order",
  "For a given request on a validated configuration, the set of filters and the returned rows are the same for every order in which Go happens to iterate over parameters, filters and indexes.",
  "every permutation of every map traversed while serving the request",
  "Go randomises the order per iteration; a test run samples one.",
  ["pkg/output/json_array.go: getFiltersPerIndex", "pkg/output/json_object.go: getRouteFiltersPerIndex", "pkg/output/json_common.go: getFilteredRecordPositionsPerIndex", "pkg/index/map.go: GetRecordPositions"])
p("Map index lookups are exact",
  "A map index returns for a set of filters exactly the positions of the records whose properties are strictly equal to all the filter values, in increasing order.",
  "every dataset with primitive values, every filter set",
  "Unbounded datasets and value types.",
  ["pkg/index/map.go: reindex, addValueToIndex, GetRecordPositions"])
p("Indexing a property holding an array works",
  "Creating a map or wildcard index on a property whose value is an array succeeds and indexes each element.",
  "every dataset with array values",
  "No test covers arrays; the code path is reached only for some data.",
  ["pkg/index/map.go: addValueToIndex lines 103-116", "pkg/index/wildcard.go: addValueToIndex lines 196-207"])
p("The default (noop) index is exact",
  "The index used by default returns exactly the positions of the records whose properties equal all the filters, in file order; without filters it returns every record.",
  "every dataset, every filter set",
  "Unbounded datasets.",
  ["pkg/index/noop.go: GetRecordPositions"])
p("Choosing the map index or no index does not change answers",
  "For the same input and the same filters on handled properties, a map index and the default index return the same positions.",
  "every dataset of primitive or null values, every non-empty filter set",
  "Equivalence of two algorithms over all data.",
  ["pkg/index/map.go", "pkg/index/noop.go"])
p("Choosing the SQLite index or no index does not change answers",
  "For the same input and filters, a binary-collated SQLite index and the default index return the same positions.",
  "every dataset of primitive or null values, every non-empty filter set",
  "Equivalence of two algorithms over all data; NULL comparison semantics.",
  ["pkg/index/sqlite.go: createIndex, GetRecordPositions"])
p("An interrupted SQLite indexing is never mistaken for a finished one",
  "If the process stops between any two SQL statements while creating a SQLite or FTS5 index, the next start does not serve the partial index: it is either rejected or rebuilt from scratch, and once creation finished the index is accepted.",
  "every dataset, every statement boundary",
  "Crash points.",
  ["pkg/index/sqlite.go: NewSqlite, createIndex", "pkg/index/fts5.go", "pkg/index/sqlite/metadata.go: Save, HasMetadata, LoadMetadata, AssertValid"])
p("Names are safely quoted in SQL and do not collide",
  "Whatever characters index and property names contain, the identifier sent to SQLite denotes exactly that name (no injection), and two distinct indexes in one database use distinct tables, columns and indexes.",
  "every name",
  "Arbitrary strings.",
  ["pkg/index/sqlite/sanitize.go: SanitizeIdentifier", "pkg/index/sqlite.go: getIndexTableIdentifier, getPropertyIdentifier, getIndexIdentifier", "pkg/index/sqlite/metadata.go: GetTableIdentifier"])
p("Paging windows are exact and tile the result",
  "A list endpoint returns rows offset..offset+limit-1 of the full filtered result, so that fetching consecutive pages yields every row exactly once in order.",
  "every result size, offset and limit",
  "Arithmetic over all sizes.",
  ["pkg/output/json_array.go: Handle lines 99-133"])
p("The page limit is enforced",
  "A list endpoint never returns more rows than the configured maximum; non-numeric, zero or negative limits and negative offsets are refused with an error and not a row list.",
  "every request and validated configuration",
  "All parameter strings.",
  ["pkg/output/json_array.go: getLimit, getOffset", "pkg/output/json_array_config.go: Validate"])
p("List endpoints return exactly the matching records",
  "The rows of a list endpoint are the records of the input whose properties equal the (parsed) value of every given parameter, in file order, restricted to the page; parameters that are not given do not filter.",
  "every dataset, every request, every assignment of parameters to map/noop indexes",
  "End-to-end composition over all data.",
  ["pkg/output/json_array.go: Handle, getFiltersPerIndex", "pkg/output/json_common.go"])
p("Object endpoints return the first match or 404",
  "An object endpoint returns the first (lowest position) record matching all its parameters, and the not-found error exactly when none matches.",
  "every dataset, every request",
  "All data.",
  ["pkg/output/json_object.go: Handle, getRouteFiltersPerIndex"])
p("Every request gets exactly one response",
  "Handling a request starts exactly one response: either one success or one error, never none or both, and no row data is sent after an error.",
  "every request, configuration and failure of any index, input or parser",
  "Failures can arise at every step.",
  ["pkg/output/json_array.go: Handle", "pkg/output/json_object.go: Handle", "pkg/service/http.go: getHandlerFunc, sendErrorResponse"])
p("A success status implies a complete JSON body",
  "Whenever a request is answered with status 200, the body is the complete JSON encoding of the result.",
  "every value the parsers can produce",
  "Depends on unencodable values such as NaN.",
  ["pkg/output/json_array.go: line 135", "pkg/output/json_object.go: line 118", "pkg/parser/float.go: Parse"])
p("Relationships embed exactly the matching related records",
  "For each relationship, the embedded array is the list of related records matching all match rules, sorted by the configured sort and truncated to the configured limit (no limit meaning all); a non-array relationship embeds the first match or null; this holds recursively.",
  "every dataset, relationship tree, limit and sort",
  "Recursive over configuration and data.",
  ["pkg/output/json_common.go: loadRelationships, getRelationshipFiltersPerIndex"])
p("Sibling relationships do not interfere",
  "The data produced for a record does not depend on the order in which its relationships are loaded.",
  "every permutation of the relationships, every record",
  "Go randomises the order.",
  ["pkg/output/json_common.go: loadRelationships lines 99-199"])
p("Sorting orders records by the configured criteria",
  "After sorting, records are a permutation of the original ones and no record comes before another one that should precede it by the first differing criterion.",
  "every list of records, every list of criteria",
  "Requires the comparison to be a strict weak order on all values present.",
  ["pkg/input/record/sort.go: Sort, Less", "pkg/parser/parser.go: Compare"])
p("Comparison of parsed values is a consistent total order",
  "Comparing two values of the same primitive type reports exactly one of less, equal, greater, is antisymmetric and transitive; values of different types are reported as an error and never ordered.",
  "every pair/triple of values",
  "Infinite domains, NaN.",
  ["pkg/parser/parser.go: Compare"])
p("Reading one property agrees with reading the whole record",
  "For CSV, JSON and XML records, getting a dotted path returns the value found at that path in the whole record, missing keys and indexes give null, and no path makes the process panic.",
  "every record, every path",
  "All nested shapes and paths, including negative indexes.",
  ["pkg/input/record/path.go: GetSubValue", "pkg/input/csv_record.go", "pkg/input/json_record.go: getSubValue", "pkg/input/xml_record.go: Get, All"])
p("Integer parsing is exact",
  "Parsing the decimal text of any 64-bit integer gives that integer, text outside the range or not a number gives an error, and ignored characters anywhere in the text do not change the result.",
  "every int64 and every string",
  "2^64 values, all strings.",
  ["pkg/parser/integer.go: Parse", "pkg/util/utils.go: RemoveCharacters"])
p("Boolean parameters are recognised exactly",
  "A boolean parser accepts exactly its configured values, and its route pattern matches exactly the strings it accepts, whatever special characters the values contain.",
  "every configuration and string",
  "All strings; regexp metacharacters.",
  ["pkg/parser/boolean.go: Parse, GetRegexpPattern"])
p("Split parsing loses nothing and terminates",
  "A split parser with a plain delimiter returns the pieces between delimiters (re-joining them gives back the text), each passed through the sub-parser in order; parsing always terminates for a validated configuration.",
  "every text, delimiter and parser graph accepted by validation",
  "All strings and cyclic configurations.",
  ["pkg/parser/split.go: Parse", "pkg/parser/split_config.go: Validate"])
p("Text accepted by a numeric route pattern can be parsed",
  "A path segment accepted by the route pattern of an integer parser is accepted by that parser.",
  "every configuration and every string",
  "All strings.",
  ["pkg/parser/integer.go: GetRegexpPattern, Parse", "pkg/parser/float.go: GetRegexpPattern"])
p("Route parameters receive their own text",
  "For a request matching a route, each placeholder of the route gets the text that stands at its place in the path.",
  "every route, mix of parameter types and request path",
  "Depends on the combination of parsers in one route.",
  ["pkg/service/http.go: createPathRegexp, getParams", "pkg/parser/boolean.go: GetRegexpPattern", "pkg/parser/float.go: GetRegexpPattern"])
p("The query string cannot override route parameters",
  "Parameters bound by the path always win over same-named query string parameters; all others take the first value given in the query string.",
  "every query string",
  "All query strings.",
  ["pkg/service/http.go: getParams"])
p("Routing picks the first matching route, and literal text only matches itself",
  "A request is served by the first configured route whose method and path match, a 404 is sent exactly when there is none, and the text outside placeholders of a route path only matches identical text.",
  "every route list and request",
  "All paths.",
  ["pkg/service/http.go: getMatchingRoute, createPathRegexp"])
p("Re-reading a CSV record by position gives the indexed record",
  "For every record produced while iterating over a CSV file, getting its position later returns the same cells; positions are strictly increasing.",
  "every file content, every buffer refill pattern, every previous sequence of reads",
  "All files and histories.",
  ["pkg/input/csv.go: Get, IterateAll", "pkg/util/bufio.go"])
p("Re-reading a JSON record by position gives the indexed record, and no document is skipped",
  "For every record produced while iterating over a JSON lines file, getting its position later returns the same document, positions are strictly increasing, and iteration either returns every document of the file or reports an error.",
  "every file content",
  "All files, malformed ones included.",
  ["pkg/input/json.go: Get, IterateAll"])
p("Concurrent record reads do not disturb each other",
  "When requests read records of the same input concurrently, each one gets the record at the position it asked for, and no read blocks forever.",
  "every number of concurrent readers, every interleaving",
  "Schedules cannot be enumerated by tests.",
  ["pkg/input/csv.go: Get", "pkg/input/json.go: Get", "pkg/input/xml.go: Get"])
p("Concurrent charset conversions do not disturb each other",
  "When requests parse text with the same converting string parser concurrently, each gets the conversion of its own text.",
  "every interleaving, every charset",
  "Schedules.",
  ["pkg/parser/string.go: NewString, Parse"])
p("No data from a changed input file is served when dieOnInputChange is set",
  "With dieOnInputChange, once the input file has been changed by another process and the change notified, the process terminates; without it, it keeps running.",
  "every sequence of file system notifications",
  "All event histories, including replacement by rename.",
  ["pkg/util/fsnotify.go: StartFilesystemWatchProcess", "pkg/input/csv.go: open, Get, IterateAll"])
p("Serving a request releases the resources it opened",
  "When a request is finished, all file handles and database cursors opened to serve it have been closed.",
  "every request, dataset and limit",
  "Depends on how much of each iterator is consumed.",
  ["pkg/index/noop.go", "pkg/index/sqlite.go: GetRecordPositions", "pkg/output/json_object.go: Handle", "pkg/output/json_array.go: Handle"])
p("A validated configuration has no dangling reference",
  "If validation succeeds then creating parsers, inputs, indexes, outputs and routes never fails because a named parser, input, index or output does not exist, and serving requests never fails for that reason either.",
  "every configuration",
  "All configurations, nested relationships.",
  ["pkg/config/config.go: Validate, addDefaultConfigs", "pkg/output/*_config.go", "pkg/output/relationship/config.go", "pkg/input/*_config.go", "pkg/index/*_config.go"])
p("Validating a configuration never crashes",
  "Validation of any configuration returns success or an error and never panics.",
  "every configuration and file system state",
  "All file system states.",
  ["pkg/input/csv_config.go: Validate line 67-73", "pkg/input/json_config.go", "pkg/input/xml_config.go", "pkg/service/http_config.go"])
p("Buffered offsets are exact",
  "The offset reported for a buffered file reader is the number of bytes consumed so far, whatever the buffering; after setting an offset, the next byte read is the file byte at that offset.",
  "every file, every sequence of reads and refill sizes",
  "Refill sizes are up to the OS.",
  ["pkg/util/bufio.go: GetBufferedReaderOffset, SetBufferedReaderOffset"])
p("Documented collations are accepted",
  "The collations documented for SQLite indexes (binary, nocase, rtrim, in any case) pass validation, and only those.",
  "every collate string",
  "All strings.",
  ["pkg/index/sqlite_config.go: SqlitePropertyCollateAllowedValues, Validate"])
p("Names are unique and defaults never override user objects",
  "A configuration with two objects of the same kind and name is refused; built-in parsers and the default index are always available, and a user object of the same name takes precedence.",
  "every parsed configuration",
  "All configurations.",
  ["pkg/config/config.go: NewConfigFromParsedConfig, addDefaultConfigs"])
p("The advertised address is reachable and deterministic",
  "A wildcard listening address is advertised as the loopback address with the same port, other addresses are unchanged, and the result does not depend on map iteration order.",
  "every address string",
  "All strings, random order.",
  ["pkg/util/utils.go: GetAddress"])
p("CSV rows shorter or longer than the columns",
  "For a CSV record, columns beyond the row are null, extra cells are ignored, and every configured column appears exactly once in the whole record.",
  "every row and column list",
  "All sizes.",
  ["pkg/input/csv_record.go: All, getColumn", "pkg/input/csv.go: autodetectColumns"])
p("CSV files are read exactly",
  "A file written with the quoting rules of RFC 4180 (cells quoted or not, LF or CRLF, any number of cells per row, with or without final newline) is iterated as exactly the written rows, at the offsets of their first bytes, and the header row is skipped when configured.",
  "every list of rows and way to write them, every delimiter, buffer and read size",
  "All texts and all buffering.",
  ["pkg/input/csv.go: IterateAll, open, Get", "pkg/util/bufio.go"])

p("Indexes and parsers fit where they are used",
  "In a configuration which passes validation, the index of every parameter and of every match of a relationship (at any depth) is built over the input concerned and contains the property, and the parser of a parameter gives a primitive value.",
  "every configuration",
  "All configurations, nested relationships.",
  ["pkg/output/parameter/config.go: Validate", "pkg/output/relationship/config.go: validate", "pkg/index/*_config.go: DoesHandleProperty, DoesHandleInput"])
p("A validated configuration is unambiguous",
  "In a configuration which passes validation, no request parameter has two meanings (limit, offset, filters), limits are positive and the default limit does not exceed the maximum, columns, properties, matched and sorted properties and routes are distinct.",
  "every configuration",
  "All configurations.",
  ["pkg/output/json_array_config.go: Validate", "pkg/output/relationship/config.go: validate", "pkg/input/csv_config.go", "pkg/input/xml_config.go", "pkg/service/http_config.go"])
p("A validated configuration starts",
  "If validation succeeds and files, charsets, indexes and ports are usable, then the server starts.",
  "every configuration",
  "All configurations.",
  ["cmd/main.go", "pkg/output/output.go: NewFromConfig", "pkg/service/http.go: NewHttp"])
p("Settings are kept and omitted settings take their documented values",
  "The configuration the server uses is the one written by the user, with every omitted setting replaced by the value given in the documentation, and contains no other object than the user's and the documented built-in ones.",
  "every configuration",
  "All configurations, nested properties and relationships.",
  ["pkg/config/config.go", "pkg/*/*_config.go: Validate", "docs/schema"])

p("A SQLite index belongs to its configuration",
  "A SQLite index that was created with other properties or collations than those configured is not used as if it had the configured ones.",
  "every configuration before and after, every dataset",
  "All pairs of configurations, all data.",
  ["pkg/index/sqlite.go: NewSqlite, GetRecordPositions", "pkg/index/sqlite/metadata.go: AssertValid"])
p("A failing query is not a short answer",
  "When SQLite fails while returning rows, the iterator of a SQLite index reports an error, and never gives a position that does not match.",
  "every dataset, filter and point of failure",
  "I/O errors at arbitrary rows.",
  ["pkg/index/sqlite.go: GetRecordPositions", "pkg/index/fts5.go: GetRecordPositions"])
p("Queries of a SQLite index do not disturb each other",
  "What a query of a SQLite or full-text index answers, and what its iterator gives, does not depend on the other queries of the same index: earlier ones, ones read in turns with it, ones that were never read to their end.",
  "every index, dataset, and interleaving of queries and reads",
  "Unbounded interleavings of iterators; needs exhausted connections.",
  ["pkg/index/sqlite/open.go: Open", "pkg/index/sqlite.go: GetRecordPositions", "pkg/index/fts5.go: GetRecordPositions", "pkg/output/json_object.go: Handle", "docs/schema/indexes/indexes.yaml"])
p("Re-reading an XML record by position gives the indexed record",
  "For every record found by an iteration over an XML input, Get at its position gives the same record, whatever records were read before.",
  "every file, record XPath and sequence of reads",
  "The parser and its decoder keep state between calls; all histories of calls.",
  ["pkg/input/xml.go: Get, IterateAll", "pkg/util/bufio.go: SetBufferedReaderOffset"])
p("Stopping the server finishes the requests being served, and stops",
  "After an interrupt the process ends with status 0 when no server has failed; the requests being served are answered before the indexes and inputs are closed and the process is gone; new ones are not accepted by a server that was shut down.",
  "every number of services, servers and requests, every interleaving",
  "Unbounded interleavings of main, the signal goroutine, servers and requests.",
  ["cmd/main.go: main", "pkg/service/service.go: Wait, Close", "pkg/service/http.go: Wait, Close"])
p("A server that stops working stops the process with an error",
  "When the listener of a service fails (for example because its certificate cannot be read), the process ends with status 1.",
  "every number of services, servers and requests, every interleaving",
  "Failures at arbitrary moments, the order of Go maps.",
  ["cmd/main.go: main", "pkg/service/service.go: Wait", "pkg/service/http.go: NewHttp, Wait"])
p("The configuration is used as written, except for environment variables",
  "The text decoded as YAML is the text of the configuration file in which each $NAME and ${NAME} is replaced by the value of the variable, and nothing else is changed.",
  "every text and every environment",
  "All texts: dollar signs before any character, nested and unclosed braces.",
  ["pkg/config/config.go: NewConfigFromYamlFile"])

p("A number of a float column is read as the float64 nearest to it",
  "With the configured separator and ignored characters, the text of a decimal number is read as the float64 nearest to the number, half-way cases to even; equal numbers are read as equal values, the order is kept, whole numbers up to 2^53 are exact; other texts are refused.",
  "every text of a number of any length, every separator and set of ignored characters",
  "Infinitely many texts; rounding at half-way points, at the ends of the range and in subnormal numbers.",
  ["pkg/parser/float.go: Parse", "pkg/util/utils.go: RemoveCharacters"])

p("JSON data is decoded as it is written",
  "A JSON text (in a JSON file, or in a column with the JSON parser) is decoded to the data it denotes, every other text is refused, nothing panics, and the data is served again as equal JSON.",
  "every text and every file, of any length and nesting",
  "Infinitely many texts; escapes, surrogates, invalid UTF-8, nesting, duplicate names, numbers of any length.",
  ["pkg/parser/json.go: Parse", "pkg/input/json.go: Get, IterateAll"])

p("Numbers are served as they were read",
  "The JSON text of a float64 is a number of RFC 8259 which is read back as the same float64, has the fewest digits possible and is the closest one of those; a number of at most 15 digits in a float column is shown as the same number.",
  "every finite float64, every text of a number, separator and set of ignored characters",
  "There are 2^64 float64 and infinitely many texts; the digits depend on intervals of reals at powers of two and half-way points.",
  ["pkg/output/json_array.go: Handle", "pkg/output/json_object.go: Handle", "pkg/parser/float.go: Parse"])

p("A request is answered from the rows of the files as the configuration says",
  "For an accepted configuration that starts, a request on a list endpoint gets, in JSON, the asked page of the rows of the file that have all the given values, in the order of the file, each with the related rows of its relationships (selected, sorted and limited as configured); a request on an object endpoint gets the first such row, or 404.",
  "every configuration, every contents of files, every request, every order of map iteration and every state of the shared readers",
  "Every combination of configuration, files and request; goes through validation, start-up, file readers, parsers, indexes, joins, sorting, routing and JSON encoding at once.",
  ["cmd/main.go: main", "pkg/config/config.go: NewConfigFromYamlFile", "pkg/input/csv.go: IterateAll, Get", "pkg/input/json.go: IterateAll, Get", "pkg/index/map.go: GetRecordPositions", "pkg/output/json_array.go: Handle", "pkg/output/json_object.go: Handle", "pkg/service/http.go: ServeHTTP"])

p("The configuration is what the YAML document says, and what is documented is accepted",
  "The YAML document is decoded to exactly the objects it describes: every attribute has the written value, absent ones have their zero value, and unknown or repeated attributes, unknown types and values of another kind are refused; every document that conforms to the documented schema is accepted without panic.",
  "every YAML document (of any size and nesting)",
  "Infinitely many documents, each kind of object with its own attributes; nulls, repeated keys, numbers in place of texts, nested properties and relationships.",
  ["pkg/config/config.go: NewConfigFromYamlFile", "pkg/config/parser.go: UnmarshalYAML", "pkg/config/input.go: UnmarshalYAML", "pkg/config/index.go: UnmarshalYAML", "pkg/config/output.go: UnmarshalYAML", "pkg/config/service.go: UnmarshalYAML", "pkg/util/config.go: GetTypeFromConfigUnmarshaler", "docs/schema"])

p("Exactly the configurations that keep the rules are accepted",
  "Validation accepts a configuration if and only if no entry is null, the names of each kind are given and different, every named parser, input, index and output exists and fits its use, the required settings are given and the allowed ones only, and the files exist; otherwise an error is returned. The rules are those of the documentation.",
  "every decoded configuration (of any size and nesting), every file system, every set of valid regular expressions and XPaths",
  "Infinitely many configurations; each rule concerns several objects at once and any depth of properties and relationships.",
  ["pkg/config/config.go: NewConfigFromYamlFile, NewConfigFromParsedConfig, addDefaultConfigs, Validate", "pkg/parser/*_config.go: Validate", "pkg/input/*_config.go: Validate", "pkg/index/*_config.go: Validate", "pkg/output/*_config.go: Validate", "pkg/output/relationship/config.go: Validate", "pkg/output/parameter/config.go: Validate", "pkg/service/http_config.go: Validate"])

p("The program starts when its files and databases are in order",
  "With an accepted configuration, input files that hold tables, and indexes that can be built from them (the properties are there with values that the index can hold, nothing else uses their files and tables), the start succeeds: every service has the routes of the configuration and every index is complete.",
  "every accepted configuration, every contents of files and databases that is in order, every state of the shared readers",
  "Every combination of configuration, files and databases; goes through validation, readers, parsers, all kinds of indexes and several indexes in one database at once.",
  ["cmd/main.go: main", "pkg/index/index.go: NewFromConfigs", "pkg/index/map.go: NewMap", "pkg/index/wildcard.go: NewWildcard", "pkg/index/sqlite.go: NewSqlite", "pkg/index/fts5.go: NewFts5", "pkg/service/http.go: NewHttp"])

p("The program can be stopped and started again",
  "After a successful start, a start on the same files with the databases and the wildcard index files that it left succeeds again, with the same services and complete indexes, any number of times.",
  "every configuration and contents of files and databases in order, every number of starts",
  "The state left by one start is the input of the next; every combination of indexes in one database.",
  ["cmd/main.go: main", "pkg/index/wildcard.go: createIndex, loadIndex", "pkg/index/sqlite.go: NewSqlite, createIndex", "pkg/index/fts5.go: NewFts5, createIndex", "pkg/index/wildcard/metadata.go: AssertValid"])

p("A program that has started answers every request, whatever its files contain",
  "Once the program has started, each request gets exactly one response: status 200 with the computed value as complete JSON, or 404 or 500 with an error in JSON. Files which are cut, malformed or changed in kind never stop the program.",
  "every accepted configuration, every contents of the files, every request, every order of map iteration and every state of the shared readers",
  "Every damaged file and every request; a panic in a reader, a parser, an index, a join or the encoder would only show for particular bytes.",
  ["cmd/main.go: main", "pkg/service/http.go: ServeHTTP", "pkg/output/json_array.go: Handle", "pkg/output/json_object.go: Handle", "pkg/input/csv.go: Get, IterateAll", "pkg/input/json.go: Get, IterateAll", "pkg/input/xml.go: Get, IterateAll", "pkg/record/record.go: GetSubValue"])

p("The progress shown while indexing is right",
  "The percentage in the messages is the share of the file that has been read: between 0 and 100, never decreasing, 0 at the beginning and 100 at the end only. There is at most one message per second, a record read more than a second after all the others is announced, and there is none when the size of the file is unknown.",
  "every size below 2^63, every position in the file, every sequence of calls and times",
  "The percentage is computed in floating point, whose rounding shows for particular pairs of numbers only; the messages depend on the clock.",
  ["pkg/util/progress.go: TrackProgress", "pkg/input/csv.go: Size", "pkg/input/json.go: Size", "pkg/input/xml.go: Size"])

out = os.path.join(os.path.dirname(os.path.dirname(os.path.abspath(__file__))), "properties.jsonl")
with open(out, "w") as f:
    for q in P: f.write(json.dumps(q) + "\n")
print(len(P))
