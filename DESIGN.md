# Formal model of Eyevinn/dash-mpd

Prover: Rocq/Coq 8.16.1. Sources in `rocq/theories`, build with
`coq_makefile -f _CoqProject -o Makefile && make -j4` in `rocq/` (about five minutes on four cores).

* `properties.jsonl` — the claims, in terms of the API. Source: `tools/props.py`.
* `MANIFEST.json` — which theorems prove which claim. Source: `tools/claims.py`, written by `tools/manifest.py`.
* `seeded/LOG.jsonl` — mutation tests, run by `tools/mutate.py`.
* `tools/coverage.py` lists the Go functions of /repo and the model files that cite them;
  `tools/assumptions.py` prints `Print Assumptions` for every theorem of the manifest.

A theorem named `…_refuted` shows with a witness that a claim (or a clause or an obvious strengthening of it) is
false of the modelled code. A theorem named `…_partial` proves less than its claim.

## Layout

The order is that of `_CoqProject`. Models cite the Go lines they model. Specifications (`*Spec.v`, or next to the
theorem) are written without the helpers of the model. `Properties*.v` hold the theorems of the manifest together with
a concrete example beside each.

| files | Go code | content |
|---|---|---|
| `Base`, `Float64`, `Float64Proofs` | — | bytes (`Z`), strings (`list Z`), machine integers, outcomes; float64 as `SpecFloat.spec_float` |
| `Duration`, `DurationSpec/Proofs/Parse/RoundTrip`, `PropertiesDuration` | mpd/duration.go, mpd/ptrs.go | C01-C06, C54 |
| `Time`, `TimeSpec/Proofs`, `PropertiesTime`, `DateSpec`, `PropertiesDate` | mpd/io.go:115-160 | C07, C08, C53, C78 |
| `Heap`, `HeapSpec/Proofs/Clone/Period`, `PropertiesHeap` | mpd/parents.go, mpd/period.go, accessors and Clone of mpd/mpd.go | C09-C18 on a heap of objects with parent pointers |
| `Helpers`, `PropertiesHelpers` | small functions of mpd/mpd.go, mpd/scte35.go:558-590 | C19-C22, C55 |
| `Utf8`, `NameTables`, `Lexer`, `LexerProofs`, `LexerLocal` | xml/xml.go:580-1330, 2097-2124 | tokenizer, name characters |
| `Escape`, `EscapeSpec/Proofs`, `CdataProofs`, `PropertiesEscape` | xml/xml.go:1946-2091 | C26-C29, C52 |
| `Decoder`, `DecoderSpec/Proofs`, `PropertiesDecoder` | xml/xml.go:224-560, xml/read.go:765-787 | C30-C32, C37, C47 |
| `ByteDecoder`, `ByteRuns/Loud/Sim/Token/Place/Scope/Loose/End`, `PropertiesPosition` | xml/xml.go:142-1277, xml/read.go:209-227, 524-529, 572-575 | the decoder byte by byte with all options: C61-C66 |
| `ByteNear`, `PropertiesOptions` | xml/xml.go:142-205, 640-690, 1015-1197 | two decoders side by side; DefaultSpace, Entity, CharsetReader: C68-C70 |
| `PropertiesLenient` | xml/xml.go:515-575, 817-925, 1032-1177 | references, attribute values and tags that only lenient mode reads, AutoClose: C71, C72 |
| `TokenReader`, `PropertiesTokenReader` | xml/xml.go:258-273, 588-591 | decoders over token streams: C67 |
| `Printer`, `PrinterProofs`, `NameProofs`, `EncoderSpec/Proofs`, `DirectiveProofs`, `PropertiesEncoder` | xml/marshal.go:250-500, 814-950, 1213-1242 | C33, C48, C49 |
| `Methods`, `PropertiesMethods`, `PropertiesBytes`, `PropertiesElement` | xml/marshal.go:83-143, 214-235, 510-672, 759-812 | MarshalXML methods as arbitrary programs, MarshalText, Marshal and MarshalIndent, attributes given to EncodeElement: C73, C74, C56 |
| `Writer`, `WriterProofs`, `Pool`, `PropertiesWriter` | mpd/io.go:12-78, xml/marshal.go:146-235, 350-360, 1158-1211 | C23-C25 |
| `TagText`, `NsSpec/Proofs/History`, `PropertiesNamespace` | xml/marshal.go:361-500, 814-950 | C34-C36 |
| `GoType`, `Schema` | mpd/*.go | types, values; generated table of all struct types (`tools/schema.py`) |
| `TypeInfo`, `TypeInfoSpec/Proofs`, `TagSpec/Proofs`, `PropertiesTypeInfo` | xml/typeinfo.go | C39, C40, C57 |
| `Cache`, `PropertiesCache` | xml/typeinfo.go:57-167 | C51 |
| `Simple`, `Marshal`, `MarshalProofs`, `ReadNames`, `PropertiesMarshal` | xml/marshal.go:510-756, 951-1155, 1244-1310 | C43, C46 |
| `Unmarshal`, `UnmarshalProofs`, `RawContent`, `PropertiesUnmarshal` | xml/read.go:137-763 | C38, C41, C59 |
| `Io`, `PropertiesDocument`, `ValueSpec`, `PropertiesSchema` | mpd/io.go:25-113 | whole documents with the real types |
| `NsTags`, `Plan`, `PlanText`, `Lens`, `Load` | | what a written document is when it is read as tokens; field access laws |
| `RoundTripSpec/…`, `LeafProofs`, `PropertiesRoundTrip`, `PropertiesRaw`, `PropertiesNumbers` | | C42, C50 |
| `RoundTripExact` | `arrives`: what becomes of captured attributes, declarations included | C42 |
| `Stable`, `PropertiesStable`, `PropertiesSignal` | | C44, C45 |
| `Settled`, `PropertiesSettled` | `places`, `hosted`, `settled`: the captured attributes of a value and whether another cycle changes them | C42, C44 |
| `ReadText`, `PropertiesReadText` | `legible`, `tidy`: what is true of every value that was read | C77, C42 |
| `Objects`, `ObjectsProofs`, `PropertiesObjects` | mpd/io.go:46-54 with SetParents: `mpd_tree` (the objects behind a value), `load`, `held` | C79 |
| `TextMethod` | xml/read.go:230-255 unmarshalTextInterface | C80 |
| `PropertiesEvents` | mpd/scte35.go:556-575 | C81 |
| `Rounded`, `PropertiesRounded` | `retime`, `times`, `near`: values that differ in durations only | C82 |
| `Exported`, `PropertiesExported` | `rewired`, `marshal_twin`: values that differ in fields that are not looked at | C83 |
| `Hidden`, `PropertiesHidden` | `sealed`, `shown`: what is in fields that are not exported | C84 |
| `IoText`, `PropertiesIoText` | WriteToString, ReadFromString, ReadFromFile | C85 |
| `Stream`, `PropertiesStream` | Decode on a decoder in any state, several documents in one stream | C86 |
| `Infoset`, `PropertiesInfoset` | two readings side by side of documents with the same tokens | C87 |
| `AttrOrder`, `PropertiesAttrOrder` | the same with attributes in another order | C88 |
| `Tree`, `Siblings`, `PropertiesSiblings` | documents as trees: the order of children with different names, and text without a place | C89 |
| `PropertiesWriteErrors` | the error that WriteXML returns | C90 |
| `PropertiesErrorText` | texts of syntax errors and of errors for unexpected elements | C91 |
| `PropertiesUnknown` | additions to documents that the types do not know | C92 |
| `PropertiesLocal` | the attributes and elements of one field; fields that a document does not mention | C93 |
| `PropertiesElements` | slices of elements; an element in a document and alone | C94 |
| `PropertiesSingle` | the last attribute for a field; one element for a field | C95 |
| `PropertiesCharData` | the text and the name of the element | C96 |
| `PropertiesShape` | `shaped`: the shape of a value and of the document at all depths | C97 |
| `Once`, `PropertiesOnce` | | C58 |
| `Memory`, `PropertiesCopy` | xml/xml.go:56-133, xml/read.go:295-301, 432-441 | arrays and slices: CopyToken, growing slices: C75, C76 |
| `Build`, `PropertiesBuild` | mpd/scte35.go:473-554, mpd/scte214.go:99-103, mpd/mpd.go:935-973, 1116-1222 | C60: constructors, literals and assignments |

## Trusted base

1. Coq's kernel (checked again by coqchk), and the reading of Go that the model makes: nothing was extracted from or
   executed against the Go program. The comments of the definitions cite the lines; the comparison is by eye.
2. The axioms listed by `Print Assumptions` (below). All come from the standard library; none is added here.
3. The behaviour of code that is not in /repo, modelled from its documentation (below).
4. `tools/schema.py`, which turned the struct types of package mpd into `Schema.v`, and `tools/nametables.py`, which
   turned the tables of xml/xml.go:1330-1945 into `NameTables.v`. The generated files are committed and can be compared
   with the Go text directly.

### Axioms, per theorem

Every theorem of the manifest is *closed under the global context* (no axioms at all) except these:

* `ClassicalDedekindReals.sig_forall_dec`, `ClassicalDedekindReals.sig_not_dec`, `Classical_Prop.classic`,
  `FunctionalExtensionality.functional_extensionality_dep` (the standard library's real numbers, through Flocq):
  C01_string_well_formed, C02_string, C02_string_accuracy, C02_string_accuracy_refuted, C03_round_trip, C03_cycles,
  C04_language, C04_documented_accepted, C05_value, C05_value_seconds, C05_whole_seconds, C06_accepted_iff,
  C06_nonnegative, C06_negative_refuted, C08_exact, C08_close, C78_close, C13_exact, C22_round_trip, C22_no_exponent,
  C22_contract_satisfiable, C42_float_kept, C42_duration_kept, C42_seconds_kept, C43_written, C43_read_written, C53_datetime_float, C54_float, C54_microseconds,
  C82_round_trip, C82_distance, C82_read, C82_stable, C82_settles.
* `Classical_Prop.classic`: C12_period_type.

Flocq is used for its theorems on rounding; it has no axioms of its own. No other library is used.

## What is modelled, and how

Left out everywhere: running out of memory, stack depth of the Go runtime, the exact texts of error values where no
theorem speaks of them.

* **Integers** are `Z` with explicit wrap-around where the code can wrap. Exceptions, where `Z`/`nat` is unbounded: the
  printer's depth and prefix counter `seq`, the day counts inside package time (see `Time.v`).
* **Durations and dates**: every float64 operation is the correctly rounded one (`SpecFloat`), as Go specifies without
  fused operations. (Go may fuse `x*y+z` on some platforms; the code has no such expression in the modelled places.)
* **Heap model** (C09-C18): each struct reached through a pointer is a node. Slices are lists, so that sharing of
  backing arrays between slice headers is not represented; a history in which two slices of the program share an
  array and one is appended to is outside the model.
* **Decoder**, twice. `Lexer.v` and `Decoder.v` are the strict mode as made by `NewDecoder` (no AutoClose, Entity,
  CharsetReader, DefaultSpace), on the list of unread bytes ended by io.EOF; all claims about documents use them.
  `ByteDecoder.v` is the decoder with its fields: buffer, byte put back, counters, saved bytes, interned names, stack with
  end markers, pending tokens, every option, and a reader that ends with any error; CharsetReader and strings.EqualFold are
  parameters. C66 shows that the first is an abstraction of the second. The reader is a list of bytes: a ByteReader that
  returns a byte after having returned an error is outside the model. NewTokenDecoder is in `TokenReader.v`:
  the token reader is a function on a state of its own. Given a *Decoder, NewTokenDecoder returns it. That Token writes the
  translated names into the Attr slice it got from the token reader is not represented (for a decoder of bytes it is, in `Memory.v`).
* **Encoder**: the printer produces the sequence of writes; `Writer.v` says what bufio.Writer does with them over an
  arbitrary io.Writer. Where the code returns early after a write error, the model goes on; nothing reaches the
  writer after an error in either.
* **Types and values** (`GoType.v`): string, bool, integers, floats, Duration, FloatInf64, pointers, slices, structs,
  xml.Name, xml.Attr — all that package mpd uses. Types with MarshalXML, UnmarshalXML, MarshalText, UnmarshalText,
  interface and array types and byte slices as content do not occur in package mpd and are left out of `Marshal.v`. `Methods.v` has
  values with MarshalXML and MarshalText where they are given to Encode and EncodeElement, not in fields of other values, and with the start
  element that defaultStart makes as a parameter. Of unmarshalInterface only what it does to the decoder is modelled (C65),
  of values with UnmarshalText what the method is called with (C80); receiverType (xml/read.go:200-206) is not. A pointer in a value is nil or
  holds its value: sharing and cycles in a value that is written are not represented (a cyclic value, which the
  code would follow without end, is outside the model).
* **Errors of reading**: nothing is said about what is left in the value when an error is returned.
* **EncodeElement**: the capacity of the slice that append makes of the given attributes is a parameter. bytes.Buffer in Marshal is a
  writer that accepts everything.
* **Memory** (`Memory.v`): arrays with identities, the decoder's buffer, tokens as slices; a call of Token is any sequence of the
  operations the code uses. Elsewhere a buffer is the list of its bytes (C75_returned), and slices of values grow by zero values, which is
  right for slices with nothing left behind their end (C76_zero).
* **Not modelled**: the Error methods of TagPathError and UnsupportedTypeError, and those of package mpd, which return a string they are given.

### Outside /repo, modelled from documentation

* `strings.Builder` (a writer that takes everything), `os.ReadFile` (contents or an error),
  package time (`Unix`, `UTC`, `Format`, `Parse` for one layout), `strconv` (integers, booleans, `ParseFloat` on plain
  decimals and the names of infinities), `strings`, `unicode/utf8`, `bufio.Writer`, `sync.Pool` (may return any object put back,
  or a new one), `sync.Map` (atomic operations), goroutines as interleavings of these operations.
* `strconv.FormatFloat` (shortest form) and general `ParseFloat` are oracles: theorems that use them assume the
  documented contract as a hypothesis (a record `F`), and C22_contract_satisfiable shows that it can be met.
* github.com/barkimedes/go-deepcopy (used by Clone) is modelled as: fresh objects, exported fields copied, unexported
  fields zero.

## Conditions of the larger theorems

* **Round trip** (C42, C43, C44, C45, C50) is stated for all *well typed* values of all struct types of package mpd; the
  round trip for those called *clean* (`RoundTripSpec.v`). Clean excludes exactly what other theorems refute or what
  XML cannot carry: characters that are not XML characters, the four misnamed element fields (C41), nil list
  entries, negative zero in an omitted attribute, inner XML together with indentation, signals mixing namespaces.
  `tools/validate_clean.py` evaluates the definition on the documents of the project's test data: all 81 are clean but
  scte214/asset_id_upid.mpd and invalid.mpd. `tools/validate_docs.py` compares reading and writing in the model with the
  expected files. Both are tests of the model, not proofs.
  Documents are stable from the second write on (C44_settles) if also every place for captured attributes is in an
  element that holds its name, in a namespace that is not written with a fixed prefix (`hosted` in Settled.v): true of the types of
  SCTE-35, not of SCTE-214 content identifiers, for which C44_declaration_refuted shows the opposite.
  Values that were read need less (C42_read, `tidy`): their strings are XML text and their lists have no nil entries (C77).
* **Objects** (C79): reading is modelled on values (`gval`), links on objects (`Heap.v`). `mpd_tree` takes from a value the
  fields that Heap.v names and `load` allocates one object for each pointer, because reading allocates whenever a pointer
  is nil; then SetParents runs. Whether two pointers of what was read lead to the same object is thus part of the model.
* **Namespaces** (C34-C36): the positive theorems need that no attribute of the same tag redeclares a prefix already
  used, which the refuted theorems show to be necessary.
* **Termination** (C32, C38, C59): reading ends for every document without an unescaped `>` in text; with one it does not
  end (C32_terminates_refuted, C59_endless_refuted).

## Findings

What the theorems show to be wrong, or surprising, in the code:

* Durations in [999.5 ms, 1 s) print as zero seconds (C02); below 0.5 ms the round trip drifts, and the largest durations are read
  back negative (C03); `PT1D` and `P1DT` are accepted (C04); overlong durations wrap silently (C05); every negative
  duration is written in a form that is refused (C06).
* Date conversion is inexact from 2116 and wrong outside 1678..2262 (C08). Texts that are not xs:dateTimes are read
  (2024-01-01T1:00:00,5+24:60) and xs:dateTimes without a zone, with hour 24 or with other years are refused (C78).
* Asking for the start of a period listed by two MPDs in opposite orders does not end (C10); some determined durations are refused (C11);
  one period type has no name (C12); EmptyAdaptationSets are not linked, also when they are read, and lead to a crash in a Representation (C14, C18, C79).
* `AddProfile` with a comma, `SetTimescale(1)`, sizes near the limit of 32 bits (C19-C21, C55).
* A text with an unescaped `>` makes the decoder loop for ever (C32).
* A writer that violates io.Writer's contract is counted wrongly (C23); a second Close is not refused (C33).
* A later attribute of a tag can redeclare a prefix that an earlier attribute of the tag was written with (C34-C36);
  the prefix `xmlns:scte214` can be declared twice in one tag, and a list of CMCD keys gives the attribute `keys`
  several times; neither is well formed (C58).
* Whether two conflicting fields are an error depends on the order of the fields (C40).
* Four element fields have no effect: what they are meant for is skipped on reading and misnamed on writing (C41).
* Attributes equal to zero such as `S@d="0"` are lost by reading and writing (C42_zero_refuted); the `@keys` attribute of CMCD
  parameters is written once per entry, so twice in a tag for two entries.
* Writing some values read from documents crashes (C43_refuted).
* Reading into a comment field that is a slice of anything but bytes crashes, as does an attribute that is a nil pointer behind a
  pointer to a type with a method (C59_comment_refuted, C59_double_refuted); package mpd has neither.
* Indented events with child elements grow with every cycle; a namespace declaration moves behind the other attributes
  at the second write; an SCTE-214 content identifier that declares its own prefix has one more declaration of it after
  each cycle, and is not well-formed from the first one on (C44).
* A bare SCTE-35 struct in a signal is written with `xmlns=""` (C45), and prefixes used inside copied inner XML lose their
  meaning (C50).
* A field without a namespace takes an attribute of any namespace (C39, C46).
* Behind a syntax error InputPos can report column 0 (C61_refuted).
* In lenient mode: the end tag invented for a prefixed element has the prefix as its namespace (C64_refuted); an element
  without end tag that declares a namespace makes the end tag behind it an error (C64_declaring); an attribute without a
  value swallows the byte behind it, so `<a b>` is an error (C64_no_value).
* In lenient mode, an end tag that differs in case from its start tag in AutoClose closes the element around as well:
  `<a><br></BR></a>` ends with an error (C72_case_refuted), though autoClose compares with EqualFold.
* EncodeElement drops the attributes of its start element if the type of the value has more attributes than the copied slice has
  capacity for (C56_lost): one attribute given with a segment of a timeline is not written (C56_refuted).
* A value without a namespace that a MarshalXML method encodes is written without `xmlns=""`, which it has when the
  caller encodes it, since the mark on the element stack hides the namespace around (C73_namespace_refuted).
* A lenient decoder over a token stream loses end tags, since the pending end tag is only looked at when bytes are read
  (C67_lenient_refuted); its errors are not kept, so that tokens follow them (C67_goes_on).
* Decoding into a value whose slices were cut to length 0 for reuse reads new entries into the old ones: what a new element does not
  mention keeps its old value (C76_cut_refuted).
* A duration such as 1.001 s is read back one nanosecond shorter (C42_duration_refuted), though not shorter again.

## Method

The hardest parts: floats with Flocq's rounding theorems; the tokenizer by induction over inputs with a locality lemma
(what is read does not depend on what follows); the printer by an invariant relating its element stack to the bindings
of the decoder reading the output (`NsSpec.v`, `NsProofs.v`); the round trip by a *plan* — the tree of tags a value is written
as (`Plan.v`) — whose text is shown to be what the printer writes (`PlanText.v`) and whose reading is shown to restore the
fields one by one (`Lens.v`, `Load.v`, `RoundTrip*.v`). Facts about the concrete types are decided by computation over
`Schema.v` with checkers proved sound.
