{
 "claims": [
  {
   "property": "C01",
   "status": "proved",
   "theorems": [
    "C01_string_well_formed"
   ],
   "note": "every int64"
  },
  {
   "property": "C02",
   "status": "proved",
   "theorems": [
    "C02_string",
    "C02_string_accuracy",
    "C02_string_accuracy_refuted"
   ],
   "note": "holds outside [999.5 ms, 1 s); false inside that window, where zero is printed"
  },
  {
   "property": "C03",
   "status": "proved",
   "theorems": [
    "C03_round_trip",
    "C03_cycles",
    "C03_round_trip_refuted",
    "C03_largest_refuted"
   ],
   "note": "holds from 0.5 ms up to 2^63-275808 ns; false below (drift) and for the largest values (read back negative)"
  },
  {
   "property": "C04",
   "status": "proved",
   "theorems": [
    "C04_language",
    "C04_documented_accepted",
    "C04_documented_refuted"
   ],
   "note": "exact accepted language; the documented format is accepted but PT1D and P1DT are accepted as well"
  },
  {
   "property": "C05",
   "status": "proved",
   "theorems": [
    "C05_value",
    "C05_value_seconds",
    "C05_whole_seconds",
    "C05_no_wrap_refuted"
   ],
   "note": "the refuted theorem exhibits a silent wrap-around outside the range"
  },
  {
   "property": "C06",
   "status": "proved",
   "theorems": [
    "C06_accepted_iff",
    "C06_nonnegative",
    "C06_negative_refuted"
   ],
   "note": "the refuted theorem is about every negative duration"
  },
  {
   "property": "C07",
   "status": "proved",
   "theorems": [
    "C07_datetime_s",
    "C07_datetime_ms",
    "C07_injective",
    "C07_calendar_total"
   ],
   "note": "years 0000 to 9999"
  },
  {
   "property": "C08",
   "status": "proved",
   "theorems": [
    "C08_exact",
    "C08_close",
    "C08_exact_refuted",
    "C08_range_refuted"
   ],
   "note": "both stated ranges proved; exactness refuted from 2116 and for years outside 1678..2262"
  },
  {
   "property": "C09",
   "status": "proved",
   "theorems": [
    "C09_period_start",
    "C09_spec_functional",
    "C09_prefix"
   ],
   "note": "up to int64 wrap-around of the sum, stated in the theorem"
  },
  {
   "property": "C10",
   "status": "proved",
   "theorems": [
    "C10_terminates",
    "C10_terminates_refuted"
   ],
   "note": "the refuted theorem: two MPDs listing two periods in opposite order"
  },
  {
   "property": "C11",
   "status": "proved",
   "theorems": [
    "C11_explicit",
    "C11_tiles",
    "C11_succeeds",
    "C11_exact",
    "C11_single_static_refuted",
    "C11_between_starts_refuted"
   ],
   "note": "the refuted theorems exhibit determined durations that are refused"
  },
  {
   "property": "C12",
   "status": "proved",
   "theorems": [
    "C12_period_type",
    "C12_errors",
    "C12_names",
    "C12_names_refuted"
   ],
   "note": "decision table complete; the refuted theorem exhibits the answer without a name of its own"
  },
  {
   "property": "C13",
   "status": "proved",
   "theorems": [
    "C13_absolute_start",
    "C13_exact"
   ],
   "note": "exact sum for whole seconds in the stated range"
  },
  {
   "property": "C14",
   "status": "proved",
   "theorems": [
    "C14_set_parents",
    "C14_period_set_parents",
    "C14_some_lister",
    "C14_empty_sets_refuted"
   ],
   "note": "the refuted theorem exhibits unlinked EmptyAdaptationSets"
  },
  {
   "property": "C15",
   "status": "proved",
   "theorems": [
    "C15_histories",
    "C15_shared_refuted"
   ],
   "note": "the refuted theorem shows the hypothesis on shared objects is needed"
  },
  {
   "property": "C16",
   "status": "proved",
   "theorems": [
    "C16_clone_mpd",
    "C16_clone_period",
    "C16_clone_set",
    "C16_independent",
    "C16_separate"
   ],
   "note": "the external deep copy library is modelled, not verified"
  },
  {
   "property": "C17",
   "status": "proved",
   "theorems": [
    "C17_templates",
    "C17_bandwidth_digits",
    "C17_templates_refuted"
   ],
   "note": "the refuted theorem shows that both conditions are needed"
  },
  {
   "property": "C18",
   "status": "proved",
   "theorems": [
    "C18_inherit",
    "C18_addresses",
    "C18_no_crash",
    "C18_empty_set_refuted"
   ],
   "note": "the refuted theorem exhibits the crash in an EmptyAdaptationSet"
  },
  {
   "property": "C19",
   "status": "proved",
   "theorems": [
    "C19_lists",
    "C19_add",
    "C19_idempotent",
    "C19_history",
    "C19_comma_refuted"
   ],
   "note": "comma-free profiles; the refuted theorem covers the rest"
  },
  {
   "property": "C20",
   "status": "proved",
   "theorems": [
    "C20_get_set",
    "C20_history",
    "C20_default_refuted"
   ],
   "note": "the refuted theorem is about SetTimescale(1)"
  },
  {
   "property": "C21",
   "status": "proved",
   "theorems": [
    "C21_ranges",
    "C21_wrap_refuted"
   ],
   "note": "the stated ranges of sizes; wrap-around exhibited outside"
  },
  {
   "property": "C22",
   "status": "proved",
   "theorems": [
    "C22_round_trip",
    "C22_no_exponent",
    "C22_contract_satisfiable",
    "C22_words"
   ],
   "note": "relative to the documented contract of strconv.FormatFloat, which is shown satisfiable; ParseFloat is modelled on plain decimals and names"
  },
  {
   "property": "C54",
   "status": "proved",
   "theorems": [
    "C54_whole",
    "C54_float",
    "C54_microseconds",
    "C54_wrap_refuted"
   ],
   "note": "stated ranges"
  },
  {
   "property": "C55",
   "status": "proved",
   "theorems": [
    "C55_plain",
    "C55_video",
    "C55_audio",
    "C55_range_refuted"
   ],
   "note": "values that fit in 32 bits"
  },
  {
   "property": "C26",
   "status": "proved",
   "theorems": [
    "C26_attribute",
    "C26_unchanged",
    "C26_cleaned_unique",
    "C26_cleaned_text"
   ],
   "note": "also for the text escaping functions used inside quotes"
  },
  {
   "property": "C27",
   "status": "proved",
   "theorems": [
    "C27_text",
    "C27_unchanged"
   ],
   "note": ""
  },
  {
   "property": "C28",
   "status": "proved",
   "theorems": [
    "C28_cdata",
    "C28_cr_refuted",
    "C28_invalid_refuted"
   ],
   "note": "the refuted theorems show the range is exact"
  },
  {
   "property": "C29",
   "status": "proved",
   "theorems": [
    "C29_no_markup",
    "C29_safe_bytes"
   ],
   "note": ""
  },
  {
   "property": "C52",
   "status": "proved",
   "theorems": [
    "C52_lossless",
    "C52_sound",
    "C52_exact",
    "C52_encode"
   ],
   "note": "utf8.DecodeRune modelled from its documentation and compared with an independent encoding relation"
  },
  {
   "property": "C30",
   "status": "proved",
   "theorems": [
    "C30_nested",
    "C30_self_closing",
    "C30_sticky"
   ],
   "note": ""
  },
  {
   "property": "C31",
   "status": "proved",
   "theorems": [
    "C31_names",
    "C31_restored"
   ],
   "note": ""
  },
  {
   "property": "C32",
   "status": "proved",
   "theorems": [
    "C32_ends_or_stray",
    "C32_progress",
    "C32_terminates_refuted"
   ],
   "note": "the only way not to end is an unescaped > in text; the refuted theorem exhibits it"
  },
  {
   "property": "C37",
   "status": "proved",
   "theorems": [
    "C37_interning",
    "C37_entries_kept"
   ],
   "note": ""
  },
  {
   "property": "C47",
   "status": "proved",
   "theorems": [
    "C47_exact",
    "C47_bindings",
    "C47_other_outcomes"
   ],
   "note": ""
  },
  {
   "property": "C23",
   "status": "proved",
   "theorems": [
    "C23_count",
    "C23_complete",
    "C23_contract_refuted"
   ],
   "note": "for every printer program, of which encoding a value is one; the refuted theorem shows that the io.Writer contract is needed"
  },
  {
   "property": "C24",
   "status": "proved",
   "theorems": [
    "C24_no_trace",
    "C24_acquire",
    "C24_given_back"
   ],
   "note": "sync.Pool may hand out any encoder given back before, or a new one"
  },
  {
   "property": "C25",
   "status": "proved",
   "theorems": [
    "C25_exclusive",
    "C25_own_result",
    "C25_unique"
   ],
   "note": "interleaving of whole pool operations; sync.Pool itself is modelled"
  },
  {
   "property": "C33",
   "status": "proved",
   "theorems": [
    "C33_balanced",
    "C33_open_unique",
    "C33_start",
    "C33_end",
    "C33_closed",
    "C33_second_close_refuted",
    "C33_prefix_refuted"
   ],
   "note": ""
  },
  {
   "property": "C48",
   "status": "proved",
   "theorems": [
    "C48_exact",
    "C48_reads",
    "C48_same",
    "C48_reads_refuted"
   ],
   "note": ""
  },
  {
   "property": "C49",
   "status": "proved",
   "theorems": [
    "C49_comment",
    "C49_comment_reads",
    "C49_comment_refuted",
    "C49_instruction",
    "C49_instruction_reads",
    "C49_instruction_refuted",
    "C49_declaration_refuted"
   ],
   "note": ""
  },
  {
   "property": "C34",
   "status": "proved",
   "theorems": [
    "C34_round_trip",
    "C34_open_unique",
    "C34_start",
    "C34_shadow_refuted",
    "C34_xml_refuted",
    "C34_prefix_refuted"
   ],
   "note": ""
  },
  {
   "property": "C35",
   "status": "proved",
   "theorems": [
    "C35_exact",
    "C35_refuted",
    "C35_none_refuted"
   ],
   "note": ""
  },
  {
   "property": "C36",
   "status": "proved",
   "theorems": [
    "C36_once",
    "C36_refuted"
   ],
   "note": ""
  },
  {
   "property": "C39",
   "status": "proved",
   "theorems": [
    "C39_field",
    "C39_linear_search"
   ],
   "note": "which field is chosen, for every struct description"
  },
  {
   "property": "C40",
   "status": "proved",
   "theorems": [
    "C40_conflict_spec",
    "C40_kept",
    "C40_shallowest",
    "C40_error",
    "C40_error_iff",
    "C40_only_shallowest_refuted"
   ],
   "note": "the refuted theorem: the error depends on the order of the fields"
  },
  {
   "property": "C51",
   "status": "proved",
   "theorems": [
    "C51_type_impl",
    "C51_type_info",
    "C51_entries",
    "C51_kept",
    "C51_impl_kept"
   ],
   "note": "sync.Map operations are atomic steps"
  },
  {
   "property": "C57",
   "status": "proved",
   "theorems": [
    "C57_attribute",
    "C57_element",
    "C57_nameless",
    "C57_xmlname"
   ],
   "note": ""
  },
  {
   "property": "C41",
   "status": "proved",
   "theorems": [
    "C41_read",
    "C41_stored",
    "C41_written",
    "C41_misnamed_refuted",
    "C41_group_label_refuted",
    "C41_initialization_group_refuted",
    "C41_initialization_presentation_refuted",
    "C41_quality_latency_refuted"
   ],
   "note": "exact: all element fields but four work, and the four never do"
  },
  {
   "property": "C42",
   "status": "proved",
   "theorems": [
    "C42_round_trip",
    "C42_exact",
    "C42_mpd",
    "C42_read",
    "C42_float_kept",
    "C42_duration_kept",
    "C42_seconds_kept",
    "C42_zero_refuted",
    "C42_duration_refuted"
   ],
   "note": "for the values called clean in RoundTripSpec.v, which exclude what the other claims refute: the four misnamed element fields, nil list entries, inner XML, indented events with child elements, negative zero in an omitted attribute, signals mixing namespaces; C42_zero_refuted shows that documents (as opposed to values) lose attributes equal to zero"
  },
  {
   "property": "C43",
   "status": "proved",
   "theorems": [
    "C43_written",
    "C43_read_written",
    "C43_refuted"
   ],
   "note": "that every document can be written is refuted by C43_refuted; the values that crash are characterised"
  },
  {
   "property": "C44",
   "status": "proved",
   "theorems": [
    "C44_stable",
    "C44_cycles",
    "C44_first",
    "C44_settles",
    "C44_mpd",
    "C44_refuted",
    "C44_order_refuted",
    "C44_declaration_refuted"
   ],
   "note": "false in general, as the three refuted theorems show (events with child elements grow with every cycle; a namespace declaration moves behind the other attributes at the second write; a content identifier of SCTE-214 that declares its prefix gets one more declaration with every cycle); proved from the second write on for all clean values whose captured attributes are in elements that hold their names in a namespace without a fixed prefix, and from the first write on if these have their default namespaces among them"
  },
  {
   "property": "C45",
   "status": "proved",
   "theorems": [
    "C45_replay",
    "C45_mpd",
    "C45_levels_refuted",
    "C45_bare_refuted"
   ],
   "note": "the refuted theorems show what happens with different URIs at different levels"
  },
  {
   "property": "C46",
   "status": "proved",
   "theorems": [
    "C46_xlink",
    "C46_refuted",
    "C46_segment_list_refuted"
   ],
   "note": "exact: the exceptions are exhibited"
  },
  {
   "property": "C50",
   "status": "proved",
   "theorems": [
    "C50_read",
    "C50_bytes",
    "C50_replay",
    "C50_write",
    "C50_prefix_refuted"
   ],
   "note": "C50_prefix_refuted shows that prefixes can lose their meaning"
  },
  {
   "property": "C58",
   "status": "proved",
   "theorems": [
    "C58_once",
    "C58_mpd",
    "C58_refuted",
    "C58_keys_refuted"
   ],
   "note": "for the clean values of C42 with no captured attribute twice and no list attribute of several entries; false without these conditions, as the two refuted theorems show"
  },
  {
   "property": "C38",
   "status": "proved",
   "theorems": [
    "C38_limit",
    "C38_shallow",
    "C38_ranked",
    "C38_deep",
    "C38_deep_document",
    "C38_mpd"
   ],
   "note": ""
  },
  {
   "property": "C59",
   "status": "proved",
   "theorems": [
    "C59_read",
    "C59_mpd",
    "C59_endless_refuted",
    "C59_slice_refuted",
    "C59_comment_refuted",
    "C59_double_refuted"
   ],
   "note": "the refuted theorems show that the conditions are needed"
  },
  {
   "property": "C60",
   "status": "proved",
   "theorems": [
    "C60_constructed",
    "C60_filled",
    "C60_assembled",
    "C60_signal",
    "C60_mpd"
   ],
   "note": "numbers: durations and floats must be ones whose texts are read as the same number (kept); the conditions on assignments are those of the round trip (field_kept)"
  },
  {
   "property": "C61",
   "status": "proved",
   "theorems": [
    "C61_places",
    "C61_line",
    "C61_column",
    "C61_refuted"
   ],
   "note": "any sequence of calls, all options but CharsetReader; RawToken is not called between an end tag that AutoClose made and the token behind it; the clause on positions behind an error is refuted"
  },
  {
   "property": "C62",
   "status": "proved",
   "theorems": [
    "C62_reader_error"
   ],
   "note": "all options but CharsetReader"
  },
  {
   "property": "C63",
   "status": "proved",
   "theorems": [
    "C63_inner"
   ],
   "note": ""
  },
  {
   "property": "C64",
   "status": "proved",
   "theorems": [
    "C64_lenient",
    "C64_strict_balanced",
    "C64_balanced",
    "C64_refuted"
   ],
   "note": "the clause that invented end tags have the names of the start tags is refuted: only the local names agree"
  },
  {
   "property": "C65",
   "status": "proved",
   "theorems": [
    "C65_scope"
   ],
   "note": "strict mode"
  },
  {
   "property": "C66",
   "status": "proved",
   "theorems": [
    "C66_reference"
   ],
   "note": "strict mode without Entity, CharsetReader and DefaultSpace; for every way the reader can end"
  },
  {
   "property": "C67",
   "status": "proved",
   "theorems": [
    "C67_balanced",
    "C67_strict_balanced",
    "C67_same",
    "C67_lenient_refuted"
   ],
   "note": "C67_goes_on (an example) shows that errors are not kept; the clause for lenient mode is refuted by C67_lenient_refuted"
  },
  {
   "property": "C68",
   "status": "proved",
   "theorems": [
    "C68_default_space"
   ],
   "note": "strict mode without Entity and CharsetReader; for the tokens returned without an error (the ends differ: the element around is not closed) and before a nil token (text of length 0, see C66)"
  },
  {
   "property": "C69",
   "status": "proved",
   "theorems": [
    "C69_entity"
   ],
   "note": ""
  },
  {
   "property": "C70",
   "status": "proved",
   "theorems": [
    "C70_charset",
    "C70_unknown"
   ],
   "note": "strict mode; the declaration is version=\"1.0\" encoding=\"e\" with an EncName e; before a nil token (see C66)"
  },
  {
   "property": "C71",
   "status": "proved",
   "theorems": [
    "C71_text",
    "C71_tag"
   ],
   "note": "carriage returns (which become line feeds) and a > outside of tags (see C59) are not in the texts"
  },
  {
   "property": "C72",
   "status": "proved",
   "theorems": [
    "C72_auto",
    "C72_closed",
    "C72_case_refuted"
   ],
   "note": "the refuted theorem exhibits the end tag in another case"
  },
  {
   "property": "C56",
   "status": "proved",
   "theorems": [
    "C56_kept",
    "C56_lost",
    "C56_refuted"
   ],
   "note": "the refuted theorem exhibits the loss; C56_lost is about every type and value"
  },
  {
   "property": "C73",
   "status": "proved",
   "theorems": [
    "C73_outer",
    "C73_failed",
    "C73_balanced",
    "C73_own",
    "C73_namespace_refuted"
   ],
   "note": "the refuted theorem exhibits the last sentence; the balance of tokens is for methods that neither close the encoder nor encode values without methods"
  },
  {
   "property": "C74",
   "status": "proved",
   "theorems": [
    "C74_closed",
    "C74_marshal",
    "C74_write",
    "C74_method",
    "C74_text"
   ],
   "note": ""
  },
  {
   "property": "C75",
   "status": "proved",
   "theorems": [
    "C75_start_kept",
    "C75_copy_same",
    "C75_copy_kept",
    "C75_until_next",
    "C75_returned",
    "C75_collected",
    "C75_uncopied_refuted"
   ],
   "note": "the refuted theorem shows that tokens other than start tags have to be copied"
  },
  {
   "property": "C76",
   "status": "proved",
   "theorems": [
    "C76_zero",
    "C76_cut_refuted"
   ],
   "note": "the refuted theorem exhibits a slice cut short"
  },
  {
   "property": "C77",
   "status": "proved",
   "theorems": [
    "C77_tokens",
    "C77_values",
    "C77_mpd",
    "C77_comment_refuted"
   ],
   "note": "strict mode without Entity, CharsetReader and DefaultSpace (the reader that package mpd uses); the refuted theorem shows the exceptions of the last sentence"
  },
  {
   "property": "C78",
   "status": "proved",
   "theorems": [
    "C78_accepted",
    "C78_one_instant",
    "C78_value",
    "C78_close",
    "C78_lenient_refuted",
    "C78_strict_refuted"
   ],
   "note": "package time is modelled for the layout used; the refuted theorems compare with xs:dateTime"
  },
  {
   "property": "C79",
   "status": "proved",
   "theorems": [
    "C79_linked",
    "C79_times",
    "C79_addresses",
    "C79_same",
    "C79_cycle",
    "C79_empty_refuted"
   ],
   "note": "one object for each pointer of the value that was read"
  },
  {
   "property": "C80",
   "status": "proved",
   "theorems": [
    "C80_exact",
    "C80_errors",
    "C80_string",
    "C80_legible",
    "C80_round"
   ],
   "note": "the round trip is for start elements without attributes"
  },
  {
   "property": "C81",
   "status": "proved",
   "theorems": [
    "C81_scheme",
    "C81_lookup",
    "C81_same",
    "C81_cycle"
   ],
   "note": "values that are the same: up to attributes captured for declarations, as in C42"
  },
  {
   "property": "C82",
   "status": "proved",
   "theorems": [
    "C82_round_trip",
    "C82_distance",
    "C82_read",
    "C82_stable",
    "C82_settles",
    "C82_short_refuted"
   ],
   "note": "stability from the first writing on for documents without places for captured attributes, from the second on where these are in elements that hold their names (C44); the refuted theorem shows that short durations have to be left out"
  },
  {
   "property": "C83",
   "status": "proved",
   "theorems": [
    "C83_alike",
    "C83_links"
   ],
   "note": "values are finite trees: a link to a parent is a copy of the parent; the sharing of objects is the subject of C12, C13 and C79."
  },
  {
   "property": "C84",
   "status": "proved",
   "theorems": [
    "C84_kept",
    "C84_unlinked"
   ],
   "note": "for successful reading; what is left behind by reading that fails is not modelled."
  },
  {
   "property": "C85",
   "status": "proved",
   "theorems": [
    "C85_written",
    "C85_prefix",
    "C85_string",
    "C85_file",
    "C85_cycle"
   ],
   "note": "strings.Builder is a writer that takes everything, os.ReadFile a function from paths to contents or errors; C85_file is close to the model's definition, which repeats the code of the two functions."
  },
  {
   "property": "C86",
   "status": "proved",
   "theorems": [
    "C86_ignored",
    "C86_mpd",
    "C86_stream",
    "C86_shortest",
    "C86_end",
    "C86_written",
    "C86_cycle"
   ],
   "note": "streams of struct values; the state of the decoder after an error is not modelled for Decode; C86_mpd also says that MPDFromBytes accepts a document followed by garbage."
  },
  {
   "property": "C87",
   "status": "proved",
   "theorems": [
    "C87_same",
    "C87_equal",
    "C87_mpd"
   ],
   "note": "the errors of the model have no line numbers (C61 is about these); the tokens are those up to the end of the input, what follows the element included (C86 says that it is ignored)."
  },
  {
   "property": "C88",
   "status": "proved",
   "theorems": [
    "C88_order",
    "C88_attributes",
    "C88_any_order",
    "C88_mpd"
   ],
   "note": "when both fail the errors can be different: the first attribute that cannot be read decides. Local names are compared because a field without namespace takes attributes of any namespace."
  },
  {
   "property": "C89",
   "status": "proved",
   "theorems": [
    "C89_tree",
    "C89_order",
    "C89_mpd"
   ],
   "note": "for struct types without a>b paths and without any-element fields; the package has neither. When both fail the errors can be different."
  },
  {
   "property": "C90",
   "status": "proved",
   "theorems": [
    "C90_error",
    "C90_contract"
   ],
   "note": "if both the writer and encoding fail, the model has both errors and does not say which one is returned."
  },
  {
   "property": "C91",
   "status": "proved",
   "theorems": [
    "C91_line",
    "C91_text",
    "C91_element",
    "C91_mpd"
   ],
   "note": "lines are counted in Z: inputs with 2^63 lines are outside of what Go's int can count."
  },
  {
   "property": "C92",
   "status": "proved",
   "theorems": [
    "C92_same",
    "C92_order",
    "C92_mpd"
   ],
   "note": "for struct types without a>b paths and without any-element fields; the package has neither. Children are known by local name, and by name and namespace where the field has a namespace: only local names are used to call a child unknown."
  },
  {
   "property": "C93",
   "status": "proved",
   "theorems": [
    "C93_field",
    "C93_absent",
    "C93_mpd"
   ],
   "note": "stated for the root element's struct, with any starting value in C93_field and C93_absent; fields inside of embedded structs count as the embedded struct. C93_mpd is for every field of MPD but XMLName, by the name in its tag."
  },
  {
   "property": "C94",
   "status": "proved",
   "theorems": [
    "C94_list",
    "C94_mpd"
   ],
   "note": "stated for slices of the root element's struct; C94_list is for any struct type as root, so it says the same of the slices in a Period that is read alone."
  },
  {
   "property": "C95",
   "status": "proved",
   "theorems": [
    "C95_attr",
    "C95_element",
    "C95_mpd"
   ],
   "note": "C95_mpd is for the attributes of MPD without a name space, that is all but schemaLocation; that a duration is read as in C95_mpd is by the parser that C04 and C05 are about."
  },
  {
   "property": "C96",
   "status": "proved",
   "theorems": [
    "C96_text",
    "C96_package",
    "C96_name"
   ],
   "note": "stated for the root element's struct; C94 and C95 say that elements inside of others are read in the same way. What counts as text is by the tokens of the decoder, see spells."
  },
  {
   "property": "C97",
   "status": "proved",
   "theorems": [
    "C97_shape",
    "C97_mpd"
   ],
   "note": "for fields with a tag of the form name or name,omitempty that are declared in the struct itself, not in a struct embedded in it; nothing is said of a pointer with two or more elements for it."
  },
  {
   "property": "C53",
   "status": "proved",
   "theorems": [
    "C53_datetime_float"
   ],
   "note": "bounds 1.1 ns"
  }
 ]
}