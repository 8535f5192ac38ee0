{"id": "C01", "title": "Duration.String never fails and always prints an xs:duration", "statement": "For every int64 nanosecond count, Duration.String terminates, never writes outside its fixed 32-byte scratch buffer, and returns text of the form [-]PT[nH][nM][n[.f]S] with at least one component, no component above H, minutes and seconds fields below 60, and no trailing zero in a fraction.", "quantifier": "all 2^64 values of Duration, including the most negative one", "why_tests_cant": "2^64 inputs; a test samples a handful and the buffer bound is a worst-case statement", "anchors": ["mpd/duration.go:Duration.String", "mpd/duration.go:fmtFrac", "mpd/duration.go:fmtInt"]}
{"id": "C02", "title": "Duration.String is accurate to half a millisecond outside one window", "statement": "The number of seconds denoted by the text printed for d differs from d by at most half a millisecond, except for |d| in [999.5 ms, 1 s), where the text always denotes zero. Outside that window it is exactly d when |d| is below half a millisecond, and otherwise d rounded half away from zero to a whole millisecond.", "quantifier": "all 2^64 values of Duration", "why_tests_cant": "the only failing window is 500 microseconds wide in a range of 292 years, and the rounding goes through a float64 product", "anchors": ["mpd/duration.go:Duration.String"]}
{"id": "C03", "title": "Duration text survives read and write", "statement": "For every d from half a millisecond up to, but not including, 9223372036854500000 ns, ParseDuration accepts Duration.String(d), returns a value within one nanosecond of what the text denotes, and printing that value gives the same text again, so repeated read/write cycles do not drift. Outside that range it does not hold: there are shorter durations whose text changes in one cycle, and there are larger ones that read back negative.", "quantifier": "all non-negative int64 durations and any number of read/write cycles", "why_tests_cant": "depends on correct rounding of a decimal-to-binary conversion followed by a float64 multiplication and truncation for every millisecond value", "anchors": ["mpd/duration.go:ParseDuration", "mpd/duration.go:Duration.String", "mpd/duration.go:Duration.UnmarshalXMLAttr", "mpd/duration.go:Duration.MarshalXMLAttr"]}
{"id": "C04", "title": "The language ParseDuration accepts", "statement": "A text is accepted iff it is 'P' followed by an optional day number with D, an optional T, and hour, minute and second numbers with H, M, S in that order after the T, at least one number in total, no number without a designator, and a decimal point only in the seconds number, where the day number may also stand directly after the T and nothing need follow the T; in particular years, months, signs, duplicate or out-of-order designators are rejected whatever surrounds them. So every text of the documented format is accepted, but also texts such as PT1D and P1DT, which that format excludes.", "quantifier": "all byte strings of any length", "why_tests_cant": "the input language is infinite; tests list fewer than twenty rejected strings", "anchors": ["mpd/duration.go:ParseDuration"]}
{"id": "C05", "title": "ParseDuration returns the value of the text", "statement": "When the total fits in the int64 nanosecond range, ParseDuration returns 24h*D + 1h*H + 1min*M plus the seconds number, exactly when there is no seconds number or it is a whole number of at most 4611686018 seconds, and less than 34/32 of a nanosecond too low or at most 1/32 too high for any seconds number below one hundred thousand. Outside the range the arithmetic wraps silently: there are texts of non-negative numbers for which a negative duration is returned without an error.", "quantifier": "all accepted texts", "why_tests_cant": "unbounded digit strings; the failure needs 19-digit numbers that no test tries", "anchors": ["mpd/duration.go:ParseDuration", "mpd/duration.go:Duration.Seconds"]}
{"id": "C06", "title": "Exactly the non-negative durations can be read back", "statement": "For every Duration d, ParseDuration accepts Duration.String(d) iff d is not negative; for a negative d the printer emits a leading minus sign and the parser returns its error for negative durations.", "quantifier": "all 2^64 values of Duration", "why_tests_cant": "a claim about every value of the type", "anchors": ["mpd/duration.go:ParseDuration", "mpd/duration.go:Duration.String"]}
{"id": "C07", "title": "Integer date conversions print the right instant", "statement": "ConvertToDateTimeS(s) and ConvertToDateTimeMS(ms) print the proleptic Gregorian UTC date and time of exactly that instant (milliseconds with trailing zeros removed, no fraction when zero), for negative as well as positive counts, whenever the year is in 0000..9999; and two different instants never print the same text.", "quantifier": "all int64 second and millisecond counts whose year is in range", "why_tests_cant": "leap-year and negative-remainder logic over billions of instants", "anchors": ["mpd/io.go:ConvertToDateTimeS", "mpd/io.go:ConvertToDateTimeMS", "mpd/io.go:RFC3339MS"]}
{"id": "C08", "title": "Date text converts back to the same number of seconds", "statement": "ConvertToSeconds applied to the text printed by ConvertToDateTimeS(s) returns exactly float64(s) without error for |s| up to 4611686018 (years 1823 to 2116); for any printed instant with milliseconds inside the int64 nanosecond range (years 1678 to 2262) it is within 3 microseconds. Both bounds are needed: the number is already inexact for s = 4611686019, and for s = 9223372037, outside the nanosecond range, a wrong number is returned without an error.", "quantifier": "all int64 second counts", "why_tests_cant": "needs every instant and a float64 rounding argument; the wrap is silent", "anchors": ["mpd/io.go:DateTime.ConvertToSeconds", "mpd/io.go:ConvertToDateTimeS"]}
{"id": "C09", "title": "Period start follows the DASH rule", "statement": "In an MPD whose periods all have that MPD as parent, GetStart of the i-th period returns its own start if set, else the sum of the closest earlier explicit start and the durations in between when all those durations are set, else zero for the first period of a static MPD, and otherwise an error; the value does not depend on anything after the i-th period.", "quantifier": "all MPDs: any number of periods, any mix of missing and present starts and durations", "why_tests_cant": "recursive definition over period lists of any length", "anchors": ["mpd/period.go:Period.GetStart", "mpd/period.go:Period.GetIndex"]}
{"id": "C10", "title": "When period start lookup terminates", "statement": "GetStart returns for every period of an MPD whose periods all have that MPD as parent. It does not return on every object graph that can be built through the exported API: when the same two periods are appended in opposite orders to two MPDs it recurses for ever.", "quantifier": "all object graphs built by AppendPeriod / SetParents / direct slice edits", "why_tests_cant": "quantifies over heaps, and non-termination cannot be observed by a finite test", "anchors": ["mpd/period.go:Period.GetStart", "mpd/parents.go:MPD.AppendPeriod"]}
{"id": "C11", "title": "Period durations tile the timeline", "statement": "Whenever GetDuration succeeds for a period without explicit duration that is not last and the next period has an explicit start, start plus duration equals the next start; for the last period of a static MPD with a media presentation duration, start plus duration equals that presentation duration; the explicit duration always wins. Without an explicit duration it succeeds exactly when the period has an explicit start, the MPD, if static, has a media presentation duration, and either the next period has an explicit start or the period is the last of a static MPD; so it refuses durations that are determined, such as that of a single static period without a start, and that of a period between two explicit starts in a static MPD without media presentation duration.", "quantifier": "all MPDs with any number of periods", "why_tests_cant": "relation between neighbouring periods in lists of any length and any presence pattern", "anchors": ["mpd/period.go:Period.GetDuration"]}
{"id": "C12", "title": "Period type classification is total and consistent", "statement": "GetType succeeds exactly when the period has a parent that lists it; it answers EarlyTerminated exactly if the period has a start or follows a period with a duration, has a duration itself, and the MPD has a minimum update period or the next period a start; RegularOrEarlyTerminated if it has no start and follows a period with a duration but does not end early in that sense; EarlyAvailable if neither gives a start and the MPD is dynamic; Regular in all other cases; and every returned value except RegularOrEarlyTerminated, which prints as unknown, has a String of its own.", "quantifier": "all MPDs and period positions", "why_tests_cant": "a decision table over all presence patterns and positions", "anchors": ["mpd/period.go:Period.GetType", "mpd/period.go:PeriodType.String"]}
{"id": "C13", "title": "AbsoluteStart adds availability start and period start", "statement": "AbsoluteStart returns float64 availabilityStartTime seconds plus period start seconds, propagates every error of the two inputs, and the sum is exact for whole seconds of at most 4611686018 in either direction (availability starts from 1823 to 2116), the range in which each of the two numbers is.", "quantifier": "all MPDs, all availability start times and period starts", "why_tests_cant": "float64 addition over all values", "anchors": ["mpd/period.go:Period.AbsoluteStart", "mpd/duration.go:Duration.Seconds"]}
{"id": "C14", "title": "SetParents links the whole tree", "statement": "After reading an MPD or calling SetParents, every Period in the MPD, every AdaptationSet in each Period and every Representation in each AdaptationSet points at the object that lists it, if no object is listed twice, and at one of the objects that list it otherwise. Nothing else is changed; in particular the EmptyAdaptationSets of a Period and the Representations in them are left as they were, so after reading they have no parent.", "quantifier": "all object trees of any shape and size", "why_tests_cant": "induction over arbitrary trees and object sharing", "anchors": ["mpd/parents.go:MPD.SetParents", "mpd/parents.go:Period.SetParents", "mpd/parents.go:AdaptationSetType.SetParents", "mpd/io.go:MPDFromBytes"]}
{"id": "C15", "title": "Append operations keep the parent links correct", "statement": "Starting from correctly linked trees, any sequence of AppendPeriod, AppendAdaptationSet and AppendRepresentation calls on objects not already listed elsewhere keeps the links correct and preserves the order and the content of what was listed before.", "quantifier": "all call sequences of any length", "why_tests_cant": "history property", "anchors": ["mpd/parents.go:MPD.AppendPeriod", "mpd/parents.go:Period.AppendAdaptationSet", "mpd/parents.go:AdaptationSetType.AppendRepresentation"]}
{"id": "C16", "title": "A cloned tree is complete, linked and independent", "statement": "Clone of an MPD (or Period) has the same exported content, correct parent links inside the copy, shares no mutable object with the original, and later writes through either tree are never visible through the other.", "quantifier": "all trees and all later write sequences", "why_tests_cant": "aliasing and history property", "anchors": ["mpd/mpd.go:Clone", "mpd/period.go:Period.Clone", "mpd/parents.go"]}
{"id": "C17", "title": "Template addresses are substituted exactly once", "statement": "GetInit and GetMedia return the effective template text in which every $RepresentationID$ and $Bandwidth$ is replaced by the representation's id and decimal bandwidth and every other byte is unchanged, whenever the template is a sequence of literals and $...$ identifiers, the id has no dollar sign, the text between two identifiers is never RepresentationID, and once the id is filled in it is never Bandwidth. Both conditions are needed: an identifier inside the id is substituted again, and in $Number$Bandwidth$Time$ a closing dollar is taken for an opening one.", "quantifier": "all templates, ids and bandwidths", "why_tests_cant": "unbounded strings and interactions between two global replacements", "anchors": ["mpd/mpd.go:RepresentationType.GetInit", "mpd/mpd.go:RepresentationType.GetMedia"]}
{"id": "C18", "title": "Inherited properties come from the nearest level", "statement": "GetSegmentTemplate, GetMimeType, GetCodecs and GetContentProtections return the representation's own value when present and otherwise that of the adaptation set it is listed in, GetInit and GetMedia return ErrParentNotSet or ErrSegmentTemplateNotSet instead of crashing, and none of the accessors crashes for a representation listed by an adaptation set of a linked tree. For a representation in an EmptyAdaptationSet of an MPD that was read, which has no parent, they crash.", "quantifier": "all trees and presence patterns", "why_tests_cant": "absence of crashes over all trees", "anchors": ["mpd/mpd.go:RepresentationType.GetSegmentTemplate", "mpd/mpd.go:RepresentationType.GetMimeType", "mpd/mpd.go:RepresentationType.GetCodecs", "mpd/mpd.go:RepresentationType.GetContentProtections"]}
{"id": "C19", "title": "Adding profiles behaves like inserting into an ordered set", "statement": "AddProfile keeps every profile already listed, in order, adds the given comma-free profile at the end iff it was absent, and is idempotent; after any sequence of additions each comma-free profile occurs once. Idempotence fails for a profile that itself contains a comma.", "quantifier": "all profile lists and all sequences of additions", "why_tests_cant": "history property over unbounded strings", "anchors": ["mpd/mpd.go:ListOfProfilesType.AddProfile"]}
{"id": "C20", "title": "Timescale set and get agree", "statement": "GetTimescale after SetTimescale(t) returns t for every t, and is 1 when never set; setting 1 keeps the attribute rather than removing it, although 1 is the default.", "quantifier": "all uint32 timescales and all earlier states", "why_tests_cant": "all values and observable output", "anchors": ["mpd/mpd.go:SegmentBaseType.SetTimescale", "mpd/mpd.go:SegmentBaseType.GetTimescale"]}
{"id": "C21", "title": "Initialization and index ranges are adjacent", "statement": "SetSegmentBase(initSize, sidxSize) writes byte ranges 0-(initSize-1) and initSize-(initSize+sidxSize-1), which are adjacent, disjoint and of the given sizes, for all positive sizes whose sum is at most 2^32. (With a zero size or a larger sum the uint32 arithmetic wraps and the ranges are wrong without an error.)", "quantifier": "all pairs of uint32 sizes", "why_tests_cant": "2^64 pairs", "anchors": ["mpd/mpd.go:RepresentationType.SetSegmentBase"]}
{"id": "C22", "title": "FloatInf64 attributes survive read and write", "statement": "Every float64 other than NaN printed as an attribute is read back as the same float64, positive infinity as INF and negative infinity as -Inf; the text is never in exponent notation.", "quantifier": "all 2^64 float64 bit patterns", "why_tests_cant": "2^64 values", "anchors": ["mpd/mpd.go:FloatInf64.MarshalXMLAttr", "mpd/mpd.go:FloatInf64.UnmarshalXMLAttr"]}
{"id": "C23", "title": "WriteXML reports exactly what reached the writer", "statement": "For any writer that obeys the io.Writer contract, failing at any point and in any way, the count returned by WriteXML / Write equals the number of bytes the writer accepted, those bytes are a prefix of the full document, and when no error is returned they are the full document.", "quantifier": "all writers (any schedule of partial and failed writes), all documents, all indents", "why_tests_cant": "every failure point of an arbitrary writer", "anchors": ["mpd/io.go:WriteXML", "mpd/io.go:countingWriter.Write", "xml/marshal.go:Encoder.Encode"]}
{"id": "C24", "title": "Pooled encoders leave no trace", "statement": "The output and result of WriteXML depend only on its arguments: whatever documents were written before with the same pooled encoder, with any indents, and however those writes failed, the bytes are those of a new encoder.", "quantifier": "all histories of earlier writes, including failed ones, of any length", "why_tests_cant": "history property", "anchors": ["xml/marshal.go:AcquireEncoder", "xml/marshal.go:ReleaseEncoder", "mpd/io.go:WriteXML"]}
{"id": "C25", "title": "Concurrent writes do not share an encoder", "statement": "Under any interleaving of goroutines acquiring, using and releasing pooled encoders, no encoder is used by two goroutines at once and every write produces its own document.", "quantifier": "all schedules, any number of goroutines and operations", "why_tests_cant": "schedules are unbounded", "anchors": ["xml/marshal.go:AcquireEncoder", "xml/marshal.go:ReleaseEncoder"]}
{"id": "C26", "title": "Attribute values survive escaping", "statement": "For every byte string, writing it as an attribute value and reading the attribute back yields the same string when it consists of valid UTF-8 XML characters, and otherwise the same string with each offending byte or character replaced by U+FFFD; reading stops exactly at the closing quote.", "quantifier": "all byte strings of any length", "why_tests_cant": "all inputs including malformed UTF-8", "anchors": ["xml/xml.go:printer.EscapeString", "xml/xml.go:Decoder.text", "xml/xml.go:Decoder.attrval"]}
{"id": "C27", "title": "Element text survives escaping", "statement": "For every byte string, writing it as character data and reading it back up to the next tag yields the same string when it consists of valid XML characters, and the U+FFFD-replaced string otherwise.", "quantifier": "all byte strings of any length", "why_tests_cant": "all inputs including malformed UTF-8, carriage returns and ]]>", "anchors": ["xml/xml.go:escapeText", "xml/xml.go:Decoder.text"]}
{"id": "C28", "title": "CDATA fields survive writing", "statement": "A field written as CDATA is read back unchanged for every byte string of valid XML characters without carriage returns, including strings containing ]]> any number of times and overlapping.", "quantifier": "all byte strings of any length", "why_tests_cant": "overlapping ]]> patterns of any number", "anchors": ["xml/xml.go:emitCDATA", "xml/xml.go:Decoder.text"]}
{"id": "C29", "title": "Escaped data can never become markup", "statement": "Whatever bytes are given as attribute values or text, the written form contains no <, no quote, and no & that is not the start of a complete entity reference, and is valid UTF-8 in the XML character range.", "quantifier": "all byte strings of any length", "why_tests_cant": "injection safety is a claim about every string", "anchors": ["xml/xml.go:printer.EscapeString", "xml/xml.go:escapeText"]}
{"id": "C30", "title": "The token stream is properly nested", "statement": "Whatever the input bytes, in the sequence of tokens returned before the first error every end element closes the most recently opened element with the same name, self-closing tags yield an adjacent pair, and end of input is reported only when nothing is open.", "quantifier": "all input byte strings, any nesting depth", "why_tests_cant": "infinite input space", "anchors": ["xml/xml.go:Decoder.Token", "xml/xml.go:Decoder.popElement", "xml/xml.go:Decoder.rawToken"]}
{"id": "C31", "title": "Namespace declarations are lexically scoped", "statement": "After the end tag of an element, the meaning of every prefix and of the default namespace is what it was before its start tag; inside, each name gets the URI of the nearest enclosing declaration of its prefix, and names with undeclared prefixes keep the prefix.", "quantifier": "all documents and all nestings of redeclarations", "why_tests_cant": "undo-stack invariant over all token histories", "anchors": ["xml/xml.go:Decoder.translate", "xml/xml.go:Decoder.pushNs", "xml/xml.go:Decoder.popElement"]}
{"id": "C32", "title": "Reading ends unless text contains an unescaped >", "statement": "Every call of Token consumes input, delivers the pending half of a self-closing tag, or ends the stream, so reading a document of n bytes ends within 2n+1 calls, with one exception: when an unescaped > stands where text is expected (XML allows it in element text), Token returns empty text for ever and consumes nothing.", "quantifier": "all finite byte strings", "why_tests_cant": "non-termination is not observable by testing and the claim covers all inputs", "anchors": ["xml/xml.go:Decoder.text", "xml/xml.go:Decoder.rawToken", "xml/read.go:Decoder.unmarshal", "mpd/io.go:MPDFromBytes"]}
{"id": "C33", "title": "The encoder only produces balanced output", "statement": "In any sequence of EncodeToken, Flush and Indent calls on an encoder whose writer accepts everything, every accepted end element has the namespace and local name of the innermost open start element and is written with the very name of its start tag; refused calls write nothing; a start element is accepted iff it has a name; an end element is refused when nothing is open or the names differ, and accepted when they agree and it has no prefix or is the start element's name with a prefix that may be declared; the first Close succeeds iff nothing is left open, and after Close nothing is accepted or written. (A second Close reports success even with open elements, and a prefix starting with xml makes the end element with the start element's own name be refused: both exhibited.)", "quantifier": "all call sequences of any length", "why_tests_cant": "history property", "anchors": ["xml/marshal.go:printer.writeStart", "xml/marshal.go:printer.writeEnd", "xml/marshal.go:Encoder.Close", "xml/marshal.go:Encoder.EncodeToken"]}
{"id": "C34", "title": "Every prefix written is declared with the intended namespace", "statement": "The text of any session of EncodeToken, Flush and Indent calls in which every accepted start element fits is read back as the tokens of the calls: every element and attribute in the namespace it was given, attribute values and order unchanged, hand-made declarations still there, and only white space added by indentation. A start element fits if its names are proper names, values are XML text, one assignment of namespaces to prefixes agrees with every prefix the encoder may choose for the namespaces used, and the default namespace condition of C35 holds. (Outside these conditions it fails, as exhibited: a prefix redeclared for an attribute in the tag that uses it for the element, a hand-made declaration of a prefix starting with xml, a prefix without namespace or beside a hand-made default declaration.)", "quantifier": "all element chains, namespaces and prefixes", "why_tests_cant": "prefix invention, reuse and shadowing across any depth", "anchors": ["xml/marshal.go:printer.writeStart", "xml/marshal.go:printer.createPrefix", "xml/marshal.go:printer.getPrefix"]}
{"id": "C35", "title": "Default namespace survives nesting", "statement": "An element written without prefix and attributes inside any chain of ancestors is accepted and read back in its own namespace u exactly if no open element without prefix has namespace u, or u is the innermost default namespace; with no namespace exactly if there is no default namespace there. (So it fails for A in ns1 containing B in ns2 containing C in ns1, as exhibited.)", "quantifier": "all chains of namespaces of any depth", "why_tests_cant": "needs a pattern across three levels that no test contains", "anchors": ["xml/marshal.go:printer.writeStart", "mpd/scte35.go"]}
{"id": "C36", "title": "A start tag never repeats an attribute", "statement": "A start element that fits (C34), whose attributes have different names, ask for no prefix and have the declarations first, is written without repeating an attribute name. (Without these conditions it fails, as exhibited: a namespaced attribute listed before its own declaration, a prefix asked for and declared by hand, and a declaration by hand that repeats an outer one each yield a repeated xmlns attribute.)", "quantifier": "all start elements in all sessions", "why_tests_cant": "well-formedness over all values", "anchors": ["xml/marshal.go:printer.writeStart", "xml/marshal.go:printer.marshalAttr", "mpd/scte35.go", "mpd/mpd.go:CMCDParameterType"]}
{"id": "C37", "title": "Name interning is invisible and bounded", "statement": "The interning map always returns the given bytes as a string, never holds more than 1024 entries and never changes an entry, for any sequence of names.", "quantifier": "all sequences of names of any length", "why_tests_cant": "history property", "anchors": ["xml/xml.go:Decoder.internBytes"]}
{"id": "C38", "title": "Nesting depth is bounded on read", "statement": "Unmarshal never recurses deeper than its limit, whatever the document and the types. The limit changes nothing but to turn a result into the depth error; that error needs a document whose elements are nested as deep as the limit says (counting one level for an element and one for every slice it is in); a self-containing type gives the error for every document of more than 10000 nested elements. The types of package mpd never meet the limit: 23 levels are enough for every document.", "quantifier": "all documents, all struct types, all limits", "why_tests_cant": "unbounded depth", "anchors": ["xml/read.go:Decoder.unmarshal", "xml/read.go:Decoder.Skip"]}
{"id": "C39", "title": "Attributes are matched by exact name first", "statement": "An attribute is stored in the field with the same namespace and name if there is one, else in the field with that name and no namespace, else in the any-attribute field, else dropped; and the result is the same as searching the fields one by one in the way encoding/xml does whenever no two fields can match.", "quantifier": "all type descriptions and attribute lists", "why_tests_cant": "equivalence of a map lookup with a linear search over all schemas", "anchors": ["xml/read.go:Decoder.unmarshal", "xml/typeinfo.go:typeInfo.addAttr"]}
{"id": "C40", "title": "Struct field conflicts are resolved by depth", "statement": "For every struct description that is accepted, type analysis keeps for each name the shallowest field and no two of the kept fields conflict. For fields without parent paths it reports an error iff some field, in declaration order, has the name of an equally deep field before it and no shallower one before it. (So a shallower field declared later does not prevent the error.)", "quantifier": "all struct descriptions with any embedding", "why_tests_cant": "all schemas, not just the ones in the repository", "anchors": ["xml/typeinfo.go:addFieldInfo", "xml/typeinfo.go:structFieldInfo", "xml/typeinfo.go:getTypeInfo"]}
{"id": "C41", "title": "Every element field of the MPD types can be written and read back", "statement": "For every struct type of the package and every element field but GroupLabel, InitializationGroup, InitializationPresentation and QualityLatency: an element with the name written for the field is stored in that field when read, and the field's items accept it. For those four no element is ever accepted: whatever name is found for the field, the item type insists on another.", "quantifier": "all element fields of all types in the package, with arbitrary field content", "why_tests_cant": "covers the whole schema; test files contain none of these elements with content", "anchors": ["mpd/mpd.go", "mpd/scte35.go", "mpd/scte214.go", "mpd/up.go", "xml/read.go:Decoder.unmarshal", "xml/marshal.go:printer.marshalValue"]}
{"id": "C42", "title": "Reading what was written restores the value", "statement": "For every value of any struct type of the package whose strings are XML text, whose durations and floats are read back from their own texts, without nil list entries, inner XML, the misnamed element fields of C41, or (with an indent) events with child elements, and whose self-named elements use one namespace, writing succeeds for every indent of white space and with or without header, and reading the document gives the same content in all exported fields (captured attributes up to namespace declarations).", "quantifier": "all MPD values of any size and all indents", "why_tests_cant": "the full data type is infinite", "anchors": ["xml/marshal.go:printer.marshalValue", "xml/read.go:Decoder.unmarshal", "mpd/io.go:WriteXML", "mpd/io.go:MPDFromBytes"]}
{"id": "C43", "title": "What was read can be written, and exactly when not", "statement": "If reading a document succeeds, then writing the result, with any indent, either succeeds or crashes; it crashes exactly if somewhere in the value (behind pointers, in slices or in fields that are not excluded from XML) there is an alternative-MPD replace event whose embedded pointer is nil, which happens for a ReplacePresentation element without any of the inherited attributes and elements. The same holds for every struct type of the package and every value whose dynamic element names ask for no prefix.", "quantifier": "all documents, all indents, all struct types and well-typed values", "why_tests_cant": "absence of crashes over all inputs", "anchors": ["xml/marshal.go:printer.marshalValue", "xml/typeinfo.go:fieldInfo.value", "mpd/mpd.go:AlternativeMPDReplaceEventType"]}
{"id": "C44", "title": "Indented read/write cycles are stable", "statement": "Reading and writing with an indent repeatedly gives a document that no longer changes after the second write, for every value that keeps its content (as in C42) and whose attributes without a field are on elements that hold their own names in a namespace without a fixed prefix, as those of SCTE-35 do; it does not change after the first write either if there are no such attributes, or if these declare the namespaces themselves. (It fails for events with child elements: each cycle adds the indentation white space to the event's text. It fails for an SCTE-35 element whose prefix is declared around it: the first write declares its namespace before the other attributes, the second behind them. It fails for an SCTE-214 content identifier that declares its own prefix: each cycle adds the declaration once more.)", "quantifier": "all documents, indents and any number of cycles", "why_tests_cant": "history property", "anchors": ["xml/marshal.go:printer.writeIndent", "mpd/mpd.go:EventType"]}
{"id": "C45", "title": "SCTE-35 namespaces are replayed", "statement": "A SCTE-35 signal whose elements all use one namespace URI is written with that URI on every element, whichever URI it is, and read back identically; a whole MPD that mixes URIs only between signals keeps each of them. Signals with different URIs at different levels do not: an element whose URI is that of an outer element but not of the one around it is written without a declaration and so read in the wrong namespace.", "quantifier": "all signals and all URIs", "why_tests_cant": "all trees of splice elements", "anchors": ["mpd/scte35.go", "xml/marshal.go:printer.writeStart"]}
{"id": "C46", "title": "xlink attributes keep their namespace", "statement": "Every field named Xlink... of every type is written as an attribute of the xlink namespace with prefix xlink, whatever its value, with exactly these exceptions: AdaptationSet writes plain href, actuate, type and show, and SegmentList writes plain show.", "quantifier": "all values of the types with xlink attributes", "why_tests_cant": "observable only with a namespace-aware comparison of every type", "anchors": ["mpd/mpd.go:AdaptationSetType", "mpd/mpd.go:SegmentListType", "xml/marshal.go:printer.writeStart"]}
{"id": "C47", "title": "Skip consumes exactly one element", "statement": "Skip returns after the end tag matching the most recent start tag, leaving the following input and the namespace bindings as if the element had been read, for any content.", "quantifier": "all documents", "why_tests_cant": "unbounded nesting", "anchors": ["xml/read.go:Decoder.Skip"]}
{"id": "C48", "title": "Directive check accepts exactly balanced directives", "statement": "EncodeToken accepts a directive iff its angle brackets are balanced outside quotes and comments and it ends outside quotes and comments; an accepted directive that starts with an ordinary byte (no quote, bracket or hyphen) and has no <!--> or <!---> is read back as one token, equal to the directive with each comment replaced by a space. (Without these conditions accepted directives are read back as something else: exhibited.)", "quantifier": "all byte strings", "why_tests_cant": "infinite language", "anchors": ["xml/marshal.go:isValidDirective", "xml/marshal.go:Encoder.EncodeToken", "xml/xml.go:Decoder.rawToken"]}
{"id": "C49", "title": "Comments and processing instructions cannot break out", "statement": "EncodeToken accepts a comment iff it does not contain -->, and reading it back gives the same comment, or an error when it contains -- or ends in a hyphen, never something else; it accepts a processing instruction iff the target is a name, the text has no ?>, and nothing is buffered when the target is xml, and reading it back gives the same target and the text without leading white space, or an error for an xml declaration with another version or encoding. (Unreadable accepted comments, dropped white space and an xml declaration in the middle of a document are exhibited.)", "quantifier": "all byte strings", "why_tests_cant": "injection safety over all strings", "anchors": ["xml/marshal.go:Encoder.EncodeToken", "xml/xml.go:Decoder.rawToken"]}
{"id": "C50", "title": "Raw extension content is kept byte for byte", "statement": "The inner XML of an extension element is stored exactly as the bytes between its start and end tag and written exactly so, with any content including comments, CDATA and nested elements; read again behind any start tag it gives the same tokens but for the namespaces of names declared outside of it. Prefixes used inside need not keep their meaning: declarations on ancestors that have no any-attribute field are dropped.", "quantifier": "all documents", "why_tests_cant": "byte offsets over all token histories", "anchors": ["xml/read.go:Decoder.unmarshal", "xml/xml.go:Decoder.savedOffset", "mpd/scte35.go:ExtType"]}
{"id": "C51", "title": "Type caches are transparent under concurrency", "statement": "Under any interleaving of goroutines looking up and filling the type-information caches, every lookup returns what a fresh computation would return, and what it returned is in the cache from then on.", "quantifier": "all schedules and any number of goroutines", "why_tests_cant": "schedules are unbounded", "anchors": ["xml/typeinfo.go:getTypeInfo", "xml/marshal.go:getTypeImpl"]}
{"id": "C52", "title": "UTF-8 handling is sound", "statement": "Every byte string is split into runes without losing or adding bytes; a valid encoding of each Unicode scalar value decodes to it and re-encodes to the same bytes; no other byte sequence decodes without a replacement.", "quantifier": "all byte strings", "why_tests_cant": "all inputs", "anchors": ["xml/xml.go:Decoder.text", "xml/xml.go:printer.EscapeString", "xml/xml.go:isName"]}
{"id": "C53", "title": "Float date conversion crops to milliseconds", "statement": "For every float64 number of seconds whose date is in years 0000..9999, ConvertToDateTime prints an instant that is the value cropped down to whole milliseconds, up to 1.1 nanoseconds of rounding: never later than the value and less than a millisecond earlier.", "quantifier": "all float64 values in range, negative included", "why_tests_cant": "billions of float64 values and two roundings", "anchors": ["mpd/io.go:ConvertToDateTime"]}
{"id": "C54", "title": "Duration helpers keep the value", "statement": "Seconds2DurPtr(n) is exactly n seconds for |n| up to 9223372036; Seconds2DurPtrFloat64(x) is a whole number of microseconds within 501 ns of x for every float64 |x| up to 8 million, and is exactly k microseconds for the float64 nearest to k microseconds. (Larger whole seconds wrap silently.)", "quantifier": "all int and float64 arguments in range", "why_tests_cant": "two float64 roundings and a conversion over all values", "anchors": ["mpd/ptrs.go:Seconds2DurPtr", "mpd/ptrs.go:Seconds2DurPtrFloat64"]}
{"id": "C55", "title": "Representation constructors store what they are given", "statement": "NewRepresentationWithID, NewVideoRepresentation and NewAudioRepresentation store id, codec, MIME type, frame rate, bandwidth, width, height and the sampling rate (as a decimal number) unchanged for all sizes that fit in 32 bits, and nothing else. (Other values are truncated without an error.)", "quantifier": "all arguments", "why_tests_cant": "all 32-bit values and all strings", "anchors": ["mpd/mpd.go:NewVideoRepresentation", "mpd/mpd.go:NewAudioRepresentation", "mpd/mpd.go:NewRepresentationWithID"]}
{"id": "C57", "title": "Struct tags mean what they say", "statement": "For every namespace without spaces, prefix, name and path of parents, the tag `ns a>b>prefix:name,flags` is analysed as exactly that namespace, prefix, name, path and flags, for attributes, elements, XMLName fields and the tags without a name; an element tag is rejected iff the item type gives another element name.", "quantifier": "all tags and all field types", "why_tests_cant": "all strings; the test files contain only the tags of the package", "anchors": ["xml/typeinfo.go:structFieldInfo", "xml/typeinfo.go:lookupXMLName"]}
{"id": "C58", "title": "Written start tags have no attribute twice", "statement": "If a value of any struct type of the package that survives writing and reading has no captured attribute twice and no list attribute with several entries, then the document written for it can be read to its end and no start tag in it has two attributes of the same namespace and name, declarations included. Without these conditions this is false: an SCTE-214 content identifier that declares its prefix itself is written again with that declaration twice, and two CMCD keys are written as two attributes.", "quantifier": "all such values, every indentation, with and without header", "why_tests_cant": "the tests compare text and do not check well-formedness", "anchors": ["xml/marshal.go:printer.writeStart", "mpd/scte214.go", "mpd/io.go:WriteXML"]}
{"id": "C59", "title": "Reading never crashes", "statement": "For every byte string, reading it as an MPD gives a value of the type (integers within their sizes, every field there), made from the first element, which is named MPD and of which exactly all is read; or an error; never a crash. The same holds for every set of struct types whose text fields are not slices. Reading goes on for ever only if there is an unescaped > in text, and then it does (exhibited: <MPD>1>0).", "quantifier": "all byte strings and all struct types", "why_tests_cant": "all inputs; the failing input is a legal document", "anchors": ["xml/read.go:Decoder.unmarshal", "mpd/io.go:MPDFromBytes", "xml/xml.go:Decoder.text"]}
{"id": "C60", "title": "What the constructors build is written and read back", "statement": "Every value built with the New* functions of package mpd, with struct literals that give at most an element name (or an embedded pointer), and with assignments of writable texts, of numbers and of values built in the same way to fields, is written without error and read back with the same content. The SCTE-35 constructors give elements in the canonical namespace; a signal built from them is written and read back with every element in that namespace.", "quantifier": "all programs of constructor calls and assignments, all arguments, every indentation", "why_tests_cant": "programs of any length; the tests build a few values", "anchors": ["mpd/scte35.go:NewSignal", "mpd/scte35.go:NewSpliceInfoSection", "mpd/scte214.go:NewSCTE214ContentIdentifier", "mpd/mpd.go:NewMPD", "mpd/mpd.go:NewDescriptor", "mpd/mpd.go:NewBaseURL", "mpd/mpd.go:NewVideoRepresentation"]}
{"id": "C61", "title": "Input positions are exact", "statement": "For every input and every sequence of Token and RawToken calls, in strict or lenient mode, with any entities, within UnmarshalXML methods and with or without inner XML being captured: every call returns; InputOffset never goes back and is the number of input bytes consumed; after every call without an error InputPos is the line (1 + line feeds before) and column (1 + bytes since the last line feed) of that place; a SyntaxError carries the line of the place where the decoder stopped; a reader error is returned only when all input was consumed. Behind an error the column can be wrong (<1 followed by a line feed reports column 0).", "quantifier": "all byte strings, all sequences of calls, all options but CharsetReader", "why_tests_cant": "every byte that is put back must be uncounted on every path", "anchors": ["xml/xml.go:Decoder.getc", "xml/xml.go:Decoder.ungetc", "xml/xml.go:Decoder.InputPos", "xml/xml.go:Decoder.InputOffset", "xml/xml.go:Decoder.syntaxError"]}
{"id": "C62", "title": "Errors of the reader are passed on", "statement": "A reader that fails after some bytes gives the same sequence of tokens, offsets and positions as a reader with the same bytes that ends with io.EOF; the only difference is that every error that says that the input ended (io.EOF, unexpected EOF, unexpected EOF in a CDATA section) is the error of the reader instead.", "quantifier": "all byte strings, all errors, all sequences of Token and RawToken calls, all options but CharsetReader", "why_tests_cant": "a reader can fail at every byte of every document", "anchors": ["xml/xml.go:Decoder.getc", "xml/xml.go:Decoder.mustgetc", "xml/xml.go:Decoder.text", "xml/xml.go:Decoder.Token"]}
{"id": "C63", "title": "Captured inner XML is the input", "statement": "If the capture of inner XML begins behind a start tag and any calls of Token and RawToken follow, then what is captured is exactly the input between the two offsets; a capture inside another one does not disturb it, and the slice expression never panics.", "quantifier": "all inputs, all histories of the decoder, all sequences of calls, all options but CharsetReader", "why_tests_cant": "a byte that was read ahead must be left out exactly when it was put back", "anchors": ["xml/read.go:Decoder.unmarshal", "xml/xml.go:Decoder.savedOffset", "xml/xml.go:Decoder.getc"]}
{"id": "C64", "title": "Lenient decoders read what strict ones read and keep tokens balanced", "statement": "What a strict decoder reads without an error, the lenient decoder (Strict false, no AutoClose) reads identically, with any entities, CharsetReader and DefaultSpace. With any options at all every end token closes the innermost open element, by its local name; in strict mode by its whole name. (In lenient mode not by its whole name: the end invented for a prefixed element has the prefix in place of the namespace, and an element without end tag that declares a namespace makes the next end tag an error.)", "quantifier": "all readers, all options, all sequences of tokens", "why_tests_cant": "all documents and combinations of options; there is no test with an invented end tag for a prefixed element", "anchors": ["xml/xml.go:Decoder.Token", "xml/xml.go:Decoder.popElement", "xml/xml.go:Decoder.autoClose"]}
{"id": "C65", "title": "UnmarshalXML methods see exactly their element", "statement": "Behind a start tag, an UnmarshalXML method gets from Token the same tokens and errors that would be read without it, up to the end of its element, then io.EOF for ever; RawToken fails. If it returns before the end, this is noticed; if it has read its element, the decoder is in the state it would have without the method.", "quantifier": "all inputs, all nestings, all options of strict mode", "why_tests_cant": "a marker inside the stack has to survive all pushes and pops of namespaces", "anchors": ["xml/read.go:Decoder.unmarshalInterface", "xml/xml.go:Decoder.pushEOF", "xml/xml.go:Decoder.popEOF"]}
{"id": "C66", "title": "Tokens depend on the input alone", "statement": "The decoder with its buffer, byte put back, table of interned names, line and offset counters and saved bytes returns, for every input, the same tokens and errors as the specification that has none of them and works on the list of unread bytes; text of length 0 before a stray > is returned as a nil token.", "quantifier": "all byte strings, any number of tokens, every way a reader can end", "why_tests_cant": "reused buffers and interned names show errors only in certain histories", "anchors": ["xml/xml.go:Decoder.rawToken", "xml/xml.go:Decoder.text", "xml/xml.go:Decoder.name", "xml/xml.go:Decoder.Token"]}
{"id": "C67", "title": "Decoders over a stream of tokens", "statement": "A decoder made by NewTokenDecoder returns, for every TokenReader and all options, only balanced tokens: every end token closes the innermost open element, by its whole name in strict mode. In strict mode, over the raw tokens of another decoder, it returns the tokens that decoder would return and then the same error but for the line. In lenient mode this is false (an end tag is lost), and after an error it goes on with later tokens.", "quantifier": "all token readers, all options, all sequences of tokens", "why_tests_cant": "token readers are arbitrary programs; there is no test of the loss", "anchors": ["xml/xml.go:NewTokenDecoder", "xml/xml.go:Decoder.Token", "xml/xml.go:Decoder.rawToken"]}
{"id": "C68", "title": "DefaultSpace is an element around the input", "statement": "What a strict decoder with DefaultSpace u returns without an error is what a decoder without DefaultSpace returns behind the start tag of an element with the attribute xmlns=\"u\" put before the input.", "quantifier": "all inputs, all element names and all writable texts u, all sequences of tokens; strict mode without Entity and CharsetReader", "why_tests_cant": "the documentation promises it for every stream; the default also has to be undone by xmlns=\"\"", "anchors": ["xml/xml.go:Decoder.translate", "xml/xml.go:Decoder.Token"]}
{"id": "C69", "title": "The standard entities cannot be changed", "statement": "Whatever the map Entity says of lt, gt, amp, apos and quot, the decoder returns the same tokens and the same errors.", "quantifier": "all inputs, all maps, all other options, strict and lenient, all sequences of tokens", "why_tests_cant": "all maps and all documents", "anchors": ["xml/xml.go:Decoder.text"]}
{"id": "C70", "title": "Another encoding is read through CharsetReader", "statement": "Behind an xml declaration of version 1.0 with an encoding, a strict decoder returns the declaration and then the tokens and errors of a new decoder over the rest of the input if the encoding is UTF-8 in any case, else over the reader that CharsetReader returns for the encoding and the rest; nothing behind the declaration was consumed before. If there is no CharsetReader or it fails, the error is returned, now and at every later call.", "quantifier": "all encoding names, all inputs, all CharsetReaders, all sequences of tokens", "why_tests_cant": "a byte read ahead would be lost to the new reader", "anchors": ["xml/xml.go:Decoder.rawToken", "xml/xml.go:procInst"]}
{"id": "C71", "title": "What lenient mode makes of text that is not XML", "statement": "With Strict false, RawToken returns text with every reference of XML, of the map Entity and by a valid number replaced, and every other & with what follows it kept as it stands: references to unknown names, without semicolon, by no or too large numbers. It returns start tags with attribute values in quotes (with references as in text), without quotes (of letters, digits, _ : -, possibly empty) or without = (the value is the local name; the byte behind the name is dropped). A tag that the end of the input cuts off behind its blanks or an attribute in quotes or without value is returned, and then the error. Nothing of the text behind is consumed.", "quantifier": "all texts and tags of these forms, all Entity maps, all tokens before", "why_tests_cant": "the texts that are not XML are unlimited; a test shows some", "anchors": ["xml/xml.go:Decoder.text", "xml/xml.go:Decoder.attrval", "xml/xml.go:Decoder.rawToken"]}
{"id": "C72", "title": "Elements of AutoClose close themselves", "statement": "With Strict false, if the token behind the start tag of an element in AutoClose is not an end tag of that name in any case, Token returns an end element with the name of the start element, and then exactly what it returns behind an empty tag. An end tag in the same case closes the element once. An end tag in another case does not, although EqualFold in autoClose suggests it: it closes the element around too.", "quantifier": "all documents and tokens before, all AutoClose lists and reflexive comparisons of names", "why_tests_cant": "the token read ahead must neither be lost nor be returned twice, whatever it is", "anchors": ["xml/xml.go:Decoder.autoClose", "xml/xml.go:Decoder.Token", "xml/xml.go:Decoder.popElement"]}
{"id": "C56", "title": "Attributes given to EncodeElement are written", "statement": "If the slice of attributes given to EncodeElement has capacity for as many attributes as the type of the struct value has, what is written begins with the start tag that EncodeToken writes for the given start element with the attributes of the value behind its own. With less capacity the given attributes are lost: what is written is what is written without them.", "quantifier": "all types, values, start elements and states of the encoder", "why_tests_cant": "depends on the number of attributes of the type and on the capacity append chooses; there is no test with attributes given", "anchors": ["xml/marshal.go:Encoder.EncodeElement", "xml/marshal.go:printer.marshalValue"]}
{"id": "C73", "title": "MarshalXML methods cannot break the elements around them", "statement": "Whatever calls a MarshalXML method makes on its encoder, in reaction to whatever results, and whatever methods the values it encodes have: the elements open before stay open, and if Encode or EncodeElement succeeds no others are. The EncodeToken calls of the method are then balanced by themselves, and those of a whole program with all its methods are balanced together. If the method returned an error or left elements open, Close reports an error whatever is done afterwards. A value encoded by a method is not always written as if it had been encoded by the caller: one without a namespace gets the default namespace of the element around.", "quantifier": "all programs of calls, all nestings of methods, all writers (balance: writers that accept everything)", "why_tests_cant": "methods are arbitrary programs", "anchors": ["xml/marshal.go:printer.marshalInterface", "xml/marshal.go:printer.writeEnd", "xml/marshal.go:Encoder.EncodeElement", "xml/marshal.go:Encoder.EncodeToken"]}
{"id": "C74", "title": "Marshal returns what Encode writes", "statement": "If encoding a value succeeds, every element it started is closed. Marshal and MarshalIndent fail exactly if encoding fails, return no bytes then, and else exactly what encoding writes, which is also what WriteXML writes behind the header; Close never fails behind a successful Encode, for values with MarshalXML too. A value with MarshalText is written as its start element, character data and end element.", "quantifier": "all types (with any parents a>b>c), values, prefixes and indentations; methods that neither close the encoder nor encode values without methods", "why_tests_cant": "all types and nestings of parents", "anchors": ["xml/marshal.go:Marshal", "xml/marshal.go:MarshalIndent", "xml/marshal.go:printer.marshalTextInterface", "xml/marshal.go:parentStack.trim", "xml/marshal.go:printer.marshalStruct"]}
{"id": "C75", "title": "Copied tokens stay as they are", "statement": "The bytes of a token returned by Token are what was written to the decoder's buffer during the call, and remain so until the next call. CopyToken returns a token of the same value, which no later call of Token or CopyToken changes, and changes no other token; a start tag stays as it is even without being copied, other tokens do not. The text that Decode collects for a field is all the text of the element, although each call overwrites the text before.", "quantifier": "all sequences of operations on the buffer and of calls of Token and CopyToken, all ways in which arrays are grown", "why_tests_cant": "depends on when arrays are reused, which differs between runs and versions of the runtime", "anchors": ["xml/xml.go:CopyToken", "xml/xml.go:StartElement.Copy", "xml/xml.go:CharData.Copy", "xml/xml.go:Comment.Copy", "xml/xml.go:ProcInst.Copy", "xml/xml.go:Directive.Copy", "xml/xml.go:Decoder.Token", "xml/read.go:Decoder.unmarshal"]}
{"id": "C76", "title": "List entries are read into zero values", "statement": "Reading elements or attributes into a slice appends entries that are what the element says and otherwise zero, if what is behind the length of the slice in its array is zero, as for nil slices and slices that were only appended to. A slice cut short by the caller is read into what it had before.", "quantifier": "all slices, all sequences of entries, all ways in which arrays are grown", "why_tests_cant": "depends on the capacity of a slice and on what was in its array before", "anchors": ["xml/read.go:Decoder.unmarshal", "xml/read.go:Decoder.unmarshalAttr"]}
{"id": "C77", "title": "What is read is XML text", "statement": "Every text, attribute value and name that Token returns is valid UTF-8 made of characters that XML allows, whatever the input bytes are. So is every string, name and captured attribute in a value that Decode fills, if it was so before, and no list in it has nil entries; reading an MPD always gives such a value. Comments, processing instructions and inner XML are not checked.", "quantifier": "all inputs and all sequences of calls of Token; all types and values given to Decode", "why_tests_cant": "all byte sequences", "anchors": ["xml/xml.go:Decoder.text", "xml/xml.go:Decoder.nsname", "xml/xml.go:Decoder.rawToken", "xml/read.go:Decoder.unmarshal", "mpd/io.go:MPDFromBytes"]}
{"id": "C78", "title": "Every date is read as the instant it names", "statement": "ConvertToSeconds returns no error exactly for the texts year-month-dayThour:minute:second[fraction]zone of an existing calendar day, with four digits for the year, one or two for the hour, two for the others, a fraction of any length behind a point or a comma, and the zone Z or a signed hh:mm up to 24:60. Such a text names one instant, the fraction cut to nanoseconds; the result is within 3 microseconds of it from 1678 to 2262, and otherwise computed from the nanoseconds modulo 2^64.", "quantifier": "all texts", "why_tests_cant": "all texts, all calendar days and zones", "anchors": ["mpd/io.go:DateTime.ConvertToSeconds", "mpd/io.go:RFC3339MS"]}
{"id": "C79", "title": "What is read is a linked tree with the times and addresses of the document", "statement": "SetParents does not crash on any MPD that was read: everything it reaches through Periods, AdaptationSets, Representations and SubRepresentations is there, is listed once and knows the object that lists it. The start of each period is the one that ISO/IEC 23009-1 gives for the times stated in the document. The initialization and media address of each representation come from its own template or else from that of its adaptation set, with id and bandwidth put in; without a template there is an error. Writing and reading back changes none of this. Representations in EmptyAdaptationSets are not linked.", "quantifier": "all documents that are read without error; for the cycle: without what is not carried over (C42)", "why_tests_cant": "all documents, any number of periods, sets and representations", "anchors": ["mpd/io.go:MPDFromBytes", "mpd/parents.go:MPD.SetParents", "mpd/period.go:Period.GetStart", "mpd/mpd.go:RepresentationType.GetInit", "mpd/mpd.go:RepresentationType.GetMedia"]}
{"id": "C80", "title": "UnmarshalText methods get the text of their element", "statement": "For a value with UnmarshalText, the method is called exactly if the element ends, with the character data of the element outside its child elements, in order, which is what a string field would get; the decoder is then just behind the element. Otherwise the error is one of Token's. The bytes are valid XML text. The text that a MarshalText method returns, if it is XML text, is the one that UnmarshalText gets after writing and reading.", "quantifier": "all inputs and all element contents; all texts, names, namespaces and indentations", "why_tests_cant": "all inputs, all nestings", "anchors": ["xml/read.go:Decoder.unmarshalTextInterface", "xml/read.go:Decoder.unmarshal", "xml/marshal.go:printer.marshalTextInterface"]}
{"id": "C81", "title": "SCTE-35 messages are found after a cycle as before", "statement": "IsSCTE35 holds for the three scheme URIs of SCTE 214-1 and no other. SpliceInfo returns the section in the event's Signal if there is one, otherwise the section in the event itself, otherwise nil. For every document that is read, writing it and reading it back gives the same event streams, in periods, adaptation sets and representations, with the same answers of IsSCTE35 and SpliceInfo.", "quantifier": "all event streams and events; for the cycle: all documents that are read, without what is not carried over (C42)", "why_tests_cant": "all documents", "anchors": ["mpd/scte35.go:EventStreamType.IsSCTE35", "mpd/scte35.go:EventType.SpliceInfo", "mpd/io.go:MPDFromBytes", "mpd/io.go:MPD.Write"]}
{"id": "C82", "title": "Durations are rounded once, and documents with them are stable", "statement": "For every document that is read, whatever fractions of milliseconds its durations have (from half a millisecond on and below the largest, or such as are read back unchanged), and which otherwise has nothing that is not carried over: Write succeeds, reading the result gives the same content with every duration as its written text is read, which is at most 500001 ns away, except that durations from 0.9995 s to below 1 s become 0; the text written first is also what is written after any further number of cycles (from the second one on if elements hold captured attributes). Durations below half a millisecond can change again.", "quantifier": "all documents that are read, all durations in them, any number of cycles of reading and writing, all indents and headers", "why_tests_cant": "all documents and durations, any number of cycles", "anchors": ["mpd/io.go:MPDFromBytes", "mpd/io.go:MPD.Write", "mpd/duration.go:Duration.String", "mpd/duration.go:ParseDuration", "xml/marshal.go:printer.marshalAttr", "xml/read.go:Decoder.unmarshalAttr"]}
{"id": "C83", "title": "What is written depends on the exported fields alone", "statement": "Two values of the same struct type that differ only in fields that are not exported (such as the links to parents), fields tagged \"-\", or an XMLName field whose tag gives the name, are written alike: the same bytes, the same counts and the same errors, with every indent, with or without header and with every writer, also where writing fails. In particular whatever is put into these fields of a value does not change what is written.", "quantifier": "all struct types of the package, all values, all contents of the fields that are not looked at, all indents, headers and writers", "why_tests_cant": "all values, all contents of the unexported fields, all writers", "anchors": ["mpd/io.go:MPD.Write", "mpd/mpd.go:Clone", "xml/marshal.go:printer.marshalValue", "xml/marshal.go:printer.marshalStruct", "xml/typeinfo.go:getTypeInfo"]}
{"id": "C84", "title": "Reading leaves unexported fields alone", "statement": "Reading a document into a value neither sets nor changes the contents of fields that are not exported or are tagged \"-\": every property that the contents of these fields have in the value read into and in zero values, they have in what is read. In what is read into a new value all of these fields, which are the links to parents, are nil before they are set.", "quantifier": "all types of the package, all documents, all values read into, all properties of contents", "why_tests_cant": "all documents and all values read into", "anchors": ["xml/read.go:Decoder.unmarshal", "xml/read.go:Decoder.unmarshalPath", "xml/read.go:Decoder.unmarshalAttr", "xml/typeinfo.go:getTypeInfo", "mpd/io.go:MPDFromBytes"]}
{"id": "C85", "title": "Strings and files carry the same documents as writers and byte slices", "statement": "WriteToString of an MPD or a Period returns exactly the document if the value can be written, and the empty string with an error otherwise, whatever encoder the pool hands out; every writer that keeps the io.Writer contract gets a prefix of that string, all of it if Write returns no error. ReadFromString gives a linked MPD or the error of Unmarshal (or does not end, as said in C59); ReadFromFile gives the error of the file system or what ReadFromString gives for the contents. Writing an MPD that was read to a string or file and reading that gives the same content and the same objects again, if it has nothing that is not carried over.", "quantifier": "all values, all documents, all indents and headers, all histories of the encoder pool, all writers that keep their contract, all file systems", "why_tests_cant": "all values, documents, pools, writers and file systems", "anchors": ["mpd/io.go:MPD.WriteToString", "mpd/io.go:Period.WriteToString", "mpd/io.go:ReadFromString", "mpd/io.go:ReadFromFile", "mpd/io.go:MPDFromBytes", "mpd/io.go:WriteXML"]}
{"id": "C86", "title": "Nothing after the element is read; documents can follow one another", "statement": "If a document can be read into a value, so can the document followed by any bytes at all, well-formed or not, and the value is the same. A Decoder that has read an element is at the top level again, with no namespace left over and exactly what follows the element still to read, so that calling Decode again and again on complete documents one after the other gives their values in order; at the end, after any white space, it returns io.EOF. No part from the start of a complete document but the whole can be read. Documents that MPD.Write makes are complete, so that several MPDs written to the same place are read back one after the other.", "quantifier": "all documents, all lists of documents, all bytes after them, all struct types", "why_tests_cant": "the input is a sequence of documents of any length and what follows it is arbitrary", "anchors": ["xml/read.go:Unmarshal", "xml/read.go:Decode", "xml/read.go:DecodeElement", "xml/read.go:unmarshal", "xml/xml.go:Token", "xml/xml.go:rawToken", "mpd/io.go:MPDFromBytes", "mpd/io.go:WriteXML"]}
{"id": "C87", "title": "What is read depends on elements, attributes and text, not on how they are written", "statement": "Take two documents for which Token returns the same tokens, once comments, processing instructions and directives are left out and neighbouring character data is joined, and which end in the same way. Then reading them into the same value fails for both with the same error, line numbers apart, or gives values that differ at most in fields for comments or for the text of the element as it stands. For MPDFromBytes that is the InnerXML of Ext elements and nothing else. So comments, CDATA sections, character references, kinds of quotes, spaces inside tags and self-closing elements make no difference; for types without such fields the results are equal.", "quantifier": "all pairs of documents, all types and values read into", "why_tests_cant": "a statement about all pairs of spellings of any document", "anchors": ["xml/read.go:unmarshal", "xml/read.go:unmarshalPath", "xml/read.go:Skip", "xml/read.go:unmarshalAttr", "xml/xml.go:Token", "mpd/io.go:MPDFromBytes"]}
{"id": "C88", "title": "The order of attributes does not matter", "statement": "Take two documents as in C87, but with the attributes of elements in any order as long as attributes with the same local name keep theirs. Then both can be read or neither can, and the values differ at most in the order of attributes in lists of otherwise unknown attributes, and as in C87. If no two attributes of an element have the same local name, every order will do.", "quantifier": "all pairs of documents, all types and values read into, all orders of attributes", "why_tests_cant": "a statement about all orders of any number of attributes in all elements of a document at once", "anchors": ["xml/read.go:unmarshal", "xml/read.go:unmarshalAttr", "xml/typeinfo.go:getTypeInfo", "mpd/io.go:MPDFromBytes"]}
{"id": "C89", "title": "The order of children with different names does not matter, nor does text where it has no place", "statement": "A document that comes to an end without error is a tree of elements. Take two documents whose first elements are trees that differ only in the order of children with different local names, in the order of attributes with different local names, in where text stands between children, and in any text inside of elements whose names only belong to struct fields without a place for text, such as blanks for layout. Then both can be read or neither can, and the values differ at most in the order of attributes in lists of otherwise unknown attributes, and as in C87. Children with the same name keep their order: it is the order in the slice.", "quantifier": "all pairs of documents, all types without paths in tags and without fields for any element (all of the package), all orders of children at all levels", "why_tests_cant": "a statement about all ways of ordering and laying out documents of any size and depth at once", "anchors": ["xml/read.go:unmarshal", "xml/read.go:unmarshalPath", "xml/typeinfo.go:getTypeInfo", "mpd/io.go:MPDFromBytes"]}
{"id": "C90", "title": "WriteXML returns the error of the writer and leaves the writer alone after it", "statement": "Whatever the io.Writer does, whatever is encoded and whichever encoder comes out of the pool: WriteXML does not call the writer again after a call that returned an error. If some call returned an error, WriteXML returns an error, and unless encoding failed as well it is this very error. If no call returned an error and encoding does not fail, WriteXML returns nil, or io.ErrShortWrite if the writer took less than it was given without saying so. If the writer returned no error and encoding fails, the error is that of encoding.", "quantifier": "all writers, also those that break the io.Writer contract, all programs of writes, all pool histories", "why_tests_cant": "needs every point at which a writer can fail, in every document", "anchors": ["mpd/io.go:WriteXML", "mpd/io.go:countingWriter.Write", "xml/marshal.go:Encode", "xml/marshal.go:Flush", "xml/marshal.go:printer.Write", "xml/marshal.go:cachedWriteError"]}
{"id": "C91", "title": "Error texts name the line, and the element that was there instead of the one expected", "statement": "The text of a syntax error is 'XML syntax error on line N: message', with N in decimal one more than the number of line ends in the input so far, after whatever calls and with whatever options; different syntax errors have different texts. Unmarshal into a struct whose type has an element name fails if the first element has another name or namespace, whatever comes before and after it in the document, and the text of the error has both names. For MPDFromBytes it is 'expected element type <MPD> but have <X>'.", "quantifier": "all inputs, call sequences and decoder options; all documents and struct types", "why_tests_cant": "a statement about every place of an error in every input", "anchors": ["xml/xml.go:SyntaxError.Error", "xml/xml.go:syntaxError", "xml/read.go:UnmarshalError.Error", "xml/read.go:unmarshal", "mpd/io.go:MPDFromBytes"]}
{"id": "C92", "title": "Elements and attributes that the types do not know are passed over", "statement": "Add to a document, at any depth and in any number, attributes for which the struct that the element goes to has no field (and no field for any attribute), children for which it has no field, with anything inside of them, text where it has no field for text, and children in elements that go to strings and numbers. Then what is read stays the same, but for fields with the inner XML as it stands, or reading fails with the same error. Two documents that are the same but for such things and for the order as in C89 can both be read or neither, with the same values as in C89.", "quantifier": "all pairs of documents, all types without paths in tags and without fields for any element (all of the package), all additions at all depths", "why_tests_cant": "a statement about all names, contents and places of unknown elements", "anchors": ["xml/read.go:unmarshal", "xml/read.go:unmarshalPath", "xml/read.go:Skip", "xml/typeinfo.go:getTypeInfo", "mpd/io.go:MPDFromBytes"]}
{"id": "C93", "title": "A field depends on its own attributes and elements only, and stays as it was without any", "statement": "If two documents are read, and their root elements have the same attributes and the same child elements, in the same order, for a field of the struct, then the field has the same value after both readings, whatever else the documents have; for fields with the text or the name of the element these also have to be the same. If the root element has no attributes and no children for a field, the field has the value it had before reading, so in an MPD that is returned every field for an attribute or an element that the root element of the document does not have is zero: an empty string, nil, no elements.", "quantifier": "all documents, all types without paths in tags and without fields for any element (all of the package), all fields but those with the inner XML as it stands", "why_tests_cant": "a statement about all documents that leave something out, with anything else in them", "anchors": ["xml/read.go:unmarshal", "xml/read.go:unmarshalPath", "xml/typeinfo.go:value", "mpd/mpd.go:MPD", "mpd/io.go:MPDFromBytes"]}
{"id": "C94", "title": "A slice gets one entry for each element, the same as if the element were read alone", "statement": "After a successful reading a field that is a slice has the entries that it had before, followed by one entry for each child element of the root element for this field, in the order of the document; other elements between them do not matter. Each of these entries is what the reading of a document that consists of the child element alone gives, but for fields with the inner XML as it stands; this document may have unknown additions as in C92, such as the declaration of a name space. In an MPD that is returned the slices of MPD (Periods, BaseURL, UTCTimings and so on) so have as many entries as the root element has children with the name in the tag.", "quantifier": "all documents, all types without paths in tags and without fields for any element (all of the package), all starting values, all fields of MPD that are slices", "why_tests_cant": "any number of elements with any content, in all arrangements", "anchors": ["xml/read.go:unmarshal", "xml/read.go:unmarshalPath", "mpd/mpd.go:MPD", "mpd/io.go:MPDFromBytes"]}
{"id": "C95", "title": "The last attribute counts, and one element is read as if it were alone", "statement": "If the root element has attributes for a field that is not a slice, and no elements for it, then after a successful reading the field has the value that the last of these attributes stands for, whatever it was before. If the root element has exactly one child for a field that is zero, the field gets what the reading of a document with this element alone gives, but for fields with the inner XML as it stands. In an MPD that is returned every field for an attribute without a name space is the text of the last attribute of the root element with the name in the tag, or a pointer to it, or a pointer to the duration that this text stands for.", "quantifier": "all documents, all types without paths in tags and without fields for any element (all of the package), all starting values, 14 attributes of MPD", "why_tests_cant": "all texts of attributes, all contents of elements, anything else in the document", "anchors": ["xml/read.go:unmarshalAttr", "xml/read.go:unmarshal", "xml/read.go:unmarshalPath", "mpd/duration.go:UnmarshalXMLAttr", "mpd/mpd.go:MPD", "mpd/io.go:MPDFromBytes"]}
{"id": "C96", "title": "A field for character data gets the text of the element, and XMLName its name", "statement": "After a successful reading a field for character data has what the text of the root element stands for: all text directly inside of it joined, with references resolved and CDATA taken over, untrimmed, without comments and without the text of child elements, whatever the field was before. In the 15 structs of the package with such a field it is the text itself. XMLName of an MPD that is returned is the name of the root element with its name space, and its local part is MPD.", "quantifier": "all documents, all types without paths in tags and without fields for any element (all of the package), all starting values", "why_tests_cant": "all texts, with anything between their parts", "anchors": ["xml/read.go:unmarshal", "xml/read.go:copyValue", "mpd/mpd.go:BaseURLType", "mpd/mpd.go:MPD", "mpd/io.go:MPDFromBytes"]}
{"id": "C97", "title": "What is read has the shape of the document at all depths", "statement": "In a value that is returned, at any depth, every slice of pointers to structs whose tag is a name without a name space has one pointer for each child with this name of the element that the struct was read from, in order, none of them nil, and what each points to has the shape of that child in the same sense. Every such field that is a pointer to a struct is nil if the element has no child with the name, and not nil if it has one, with the shape of that child.", "quantifier": "all documents that can be read into an MPD or any other struct of the package, all depths, the 171 fields of the package of this kind", "why_tests_cant": "all documents with any nesting and any numbers of elements", "anchors": ["xml/read.go:unmarshal", "xml/read.go:unmarshalPath", "xml/typeinfo.go:getTypeInfo", "mpd/mpd.go:MPD", "mpd/mpd.go:Period", "mpd/io.go:MPDFromBytes"]}
