{
 "claims": [
  {
   "property": "C01",
   "status": "proved",
   "theorems": [
    "C01_text_unique",
    "C01_uint8",
    "C01_int8",
    "C01_uint16",
    "C01_int16",
    "C01_int64"
   ],
   "note": "all values of each type, any prefix already in the slice"
  },
  {
   "property": "C02",
   "status": "partial",
   "theorems": [
    "C02_uint32_refuted",
    "C02_full_refuted",
    "C02_uint32_exact_iff",
    "C02_int32_exact_iff",
    "C02_uint32_truncates"
   ],
   "note": "false of the code for |v| >= 10^9 (last six digits dropped): refuted by witness; exact iff characterisation of the correct values proved"
  },
  {
   "property": "C03",
   "status": "partial",
   "theorems": [
    "C03_uint64_refuted",
    "C03_full_refuted",
    "C03_uint64_exact_iff"
   ],
   "note": "false of the code for v >= 10^19; exact iff characterisation proved"
  },
  {
   "property": "C04",
   "status": "partial",
   "theorems": [
    "C04_string_refuted",
    "C04_full_refuted",
    "C04_string_exact_iff",
    "C04_string_wellformed"
   ],
   "note": "false of the code when the first character needing an escape is the last one (it is dropped): refuted by witness; exact iff characterisation and well-formedness for all strings proved"
  },
  {
   "property": "C05",
   "status": "partial",
   "theorems": [
    "C05_bytes_refuted",
    "C05_full_refuted",
    "C05_bytes_exact_iff",
    "C05_bytes_wellformed",
    "C05_bytes_ambiguous"
   ],
   "note": "false of the code: refuted by witness; exact iff characterisation of the lossless inputs, well-formedness for all inputs, and non-injectivity proved"
  },
  {
   "property": "C06",
   "status": "proved",
   "theorems": [
    "C06_float64",
    "C06_float32"
   ],
   "note": "every finite float64 (and float32) in the fast range; rounding of multiplication and addition by Flocq; uses the standard library's real-number axioms"
  },
  {
   "property": "C07",
   "status": "proved",
   "theorems": [
    "C07_valid_json",
    "C07_marshaler_refuted",
    "C07_unsupported_field_refuted",
    "C07_struct_key_refuted"
   ],
   "note": "Text of MarshalToString parses uniquely to a tree the value means, for every type graph of finite structure and every value within the provisos, values with MarshalJSON among them (their text may have white space around it); the three refuted theorems show the provisos are needed (unsupported field types, struct map keys, what MarshalJSON returns)."
  },
  {
   "property": "C08",
   "status": "partial",
   "theorems": [
    "C08_returns_iff_partial",
    "C08_self_reference_refuted",
    "C08_full_refuted"
   ],
   "note": "Full statement (returns for every type) is refuted by a self-referential struct; exact characterisation: returns iff the type structure is well-founded."
  },
  {
   "property": "C09",
   "status": "partial",
   "theorems": [
    "C09_readers_partial",
    "C09_clients_partial",
    "C09_empty_first_read_refuted",
    "C09_overflow_position_refuted",
    "C09_data_with_error_refuted",
    "C09_full_refuted"
   ],
   "note": "Refuted as stated: a first read of 0 bytes gives a nil source and nil error, and after an overflow the position depends on the cut. Proved for all cuts otherwise, for call sequences and for adaptive client programs."
  },
  {
   "property": "C10",
   "status": "proved",
   "theorems": [
    "C10_stream",
    "C10_stream_total"
   ],
   "note": "For readers that never return data together with an error."
  },
  {
   "property": "C100",
   "status": "partial",
   "theorems": [
    "C100_body_partial",
    "C100_unbuilt",
    "C100_request",
    "C100_query_partial",
    "C100_query_refuted",
    "C100_unmade_refuted",
    "C100_full_refuted"
   ],
   "note": "Exact; refuted: URLs with a query of their own, and HTTPBodyNotContains without a request."
  },
  {
   "property": "C101",
   "status": "partial",
   "theorems": [
    "C101_files_partial",
    "C101_link",
    "C101_error",
    "C101_links_refuted",
    "C101_full_refuted"
   ],
   "note": "Exact for paths that are no symbolic links; refuted for those."
  },
  {
   "property": "C102",
   "status": "partial",
   "theorems": [
    "C102_callers",
    "C102_total",
    "C102_hidden_refuted",
    "C102_full_refuted"
   ],
   "note": "The exact lines for every stack; refuted: files in directories named assert, mock or require are left out."
  },
  {
   "property": "C103",
   "status": "partial",
   "theorems": [
    "C103_ends_partial",
    "C103_limit_partial",
    "C103_result",
    "C103_pointer_refuted",
    "C103_slice_refuted",
    "C103_map_refuted",
    "C103_full_refuted"
   ],
   "note": "Dump ends if pointers do not go round among themselves and every other way back goes through a pointer (C103_ends_partial), or with MaxDepth if pointers do not go round among themselves (C103_limit_partial). Refuted in general: a pointer to itself (at any MaxDepth), a slice or map that contains itself (without MaxDepth) are followed for ever, although dump.go:247-250 says that circular structures are handled."
  },
  {
   "property": "C104",
   "status": "partial",
   "theorems": [
    "C104_text_partial",
    "C104_shown",
    "C104_nan_refuted",
    "C104_full_refuted",
    "C104_again_refuted"
   ],
   "note": "Proved for memories without map keys that differ from themselves. Refuted with NaN keys: the value of the key is shown as <invalid> and the indentation of the next line is lost. C104_again_refuted: <already shown> also appears for a pointer that is not part of a cycle."
  },
  {
   "property": "C105",
   "status": "partial",
   "theorems": [
    "C105_plain_partial",
    "C105_texts_partial",
    "C105_ascending",
    "C105_by_texts",
    "C105_texts_are",
    "C105_struct_refuted",
    "C105_full_refuted",
    "C105_unexported_refuted"
   ],
   "note": "Proved for keys that are sorted by their values and for keys with different texts. Refuted for struct keys without methods (their Value.String() is the same for all), although common.go:333-335 says that the order is stable; two array keys in a map behind an unexported field make Dump panic."
  },
  {
   "property": "C106",
   "status": "proved",
   "theorems": [
    "C106_address",
    "C106_different"
   ],
   "note": "Also proves that no index of the buffer is out of range."
  },
  {
   "property": "C107",
   "status": "partial",
   "theorems": [
    "C107_text",
    "C107_panic",
    "C107_disabled",
    "C107_panic_refuted",
    "C107_full_refuted"
   ],
   "note": "Refuted: after a panic of the method the value is shown as well, and a panic(nil) shows nothing (common.go:83-84 says that the error is shown as the formatted value). The rest is proved."
  },
  {
   "property": "C108",
   "status": "partial",
   "theorems": [
    "C108_text_partial",
    "C108_nothing",
    "C108_type_refuted",
    "C108_full_refuted"
   ],
   "note": "Without # for all values (C108_text_partial); with # if no pointers are elements, keys or values of maps and no key is a NaN. Refuted in general: after a nil pointer in an array, slice or map the type of what follows is missing with %#v (C108_type_refuted, C108_full_refuted)."
  },
  {
   "property": "C109",
   "status": "partial",
   "theorems": [
    "C109_ends_partial",
    "C109_limit_partial",
    "C109_result",
    "C109_pointer_refuted",
    "C109_slice_refuted",
    "C109_full_refuted"
   ],
   "note": "The formatter ends if pointers do not go round among themselves and every other way back goes through a pointer, or with MaxDepth if pointers do not go round among themselves. Refuted in general: a pointer to itself (at any MaxDepth) and a slice that contains itself (without MaxDepth) are followed for ever."
  },
  {
   "property": "C11",
   "status": "partial",
   "theorems": [
    "C11_returns_iff_partial",
    "C11_hang_refuted",
    "C11_full_refuted"
   ],
   "note": "Refuted: hangs when fewer than n bytes are left; proved to return exactly when n bytes are left."
  },
  {
   "property": "C110",
   "status": "partial",
   "theorems": [
    "C110_silent",
    "C110_text",
    "C110_verbatim_partial",
    "C110_ends_partial",
    "C110_order_partial",
    "C110_addresses",
    "C110_message",
    "C110_ends_refuted",
    "C110_hidden_refuted",
    "C110_percent_refuted",
    "C110_full_refuted"
   ],
   "note": "Refuted: slices that contain themselves never end, String methods hide differences, percent signs are taken for verbs. Proved: when nothing is said, the exact text as a unified diff of the two dumps, that it ends for values whose cycles pass pointers, and independence from the order of maps with plain keys and from addresses."
  },
  {
   "property": "C111",
   "status": "partial",
   "theorems": [
    "C111_init",
    "C111_same",
    "C111_methods",
    "C111_safe",
    "C111_disabled_refuted",
    "C111_uintptr_refuted",
    "C111_mid_refuted",
    "C111_full_refuted",
    "C111_kinds"
   ],
   "note": "Proved: exactly when init recognises the layout, that the unprotected value is the same one, which methods are looked up with and without package unsafe. Refuted: DisablePointerMethods does not hold for unexported fields; uintptr with a scalar word."
  },
  {
   "property": "C112",
   "status": "partial",
   "theorems": [
    "C112_results",
    "C112_different",
    "C112_ends",
    "C112_settled",
    "C112_alone",
    "C112_race_refuted",
    "C112_full_refuted"
   ],
   "note": "Refuted part: two goroutines asking for a new type at once get different Types. All else proved for every interleaving."
  },
  {
   "property": "C113",
   "status": "partial",
   "theorems": [
    "C113_names15",
    "C113_names17",
    "C113_sections17",
    "C113_name",
    "C113_goid",
    "C113_kinds",
    "C113_version",
    "C113_ambiguous_refuted",
    "C113_candidate_refuted",
    "C113_complex_refuted",
    "C113_full_refuted"
   ],
   "note": "Refuted parts: ambiguous names, complex kinds, release candidates. The typelinks tables are inputs."
  },
  {
   "property": "C114",
   "status": "partial",
   "theorems": [
    "C114_assert",
    "C114_unsafe",
    "C114_safe",
    "C114_usable",
    "C114_encoder",
    "C114_ptr",
    "C114_kinds_refuted",
    "C114_safe_refuted",
    "C114_full_refuted",
    "C114_kinds_partial"
   ],
   "note": "Refuted: PtrType, InterfaceType and ArrayType do not tell kinds apart, and ConfigSafe has no StructType. The exact set of succeeding assertions is proved for both configurations."
  },
  {
   "property": "C115",
   "status": "partial",
   "theorems": [
    "C115_encoders",
    "C115_document",
    "C115_slice",
    "C115_pointee_refuted",
    "C115_full_refuted",
    "C115_struct_refuted",
    "C115_same_refuted",
    "C115_nil_refuted",
    "C115_quote_refuted"
   ],
   "note": "Proved: the document is JSON, without a member twice, with the root's value under its address, and every address shown is nil's or a member. Refuted: that the document has what every pointer points to. The package does not compile at this commit; its functions are modelled as written, for reflect2 types made of the reflect types."
  },
  {
   "property": "C116",
   "status": "partial",
   "theorems": [
    "C116_layout",
    "C116_bucket",
    "C116_buckets",
    "C116_ends",
    "C116_cycle_refuted",
    "C116_count",
    "C116_count_refuted",
    "C116_full_refuted",
    "C116_old",
    "C116_big_keys_refuted"
   ],
   "note": "Proved: where buckets and their fields are taken from, when following overflow buckets ends, when all old buckets are dumped. Refuted: that the count shown is the map's."
  },
  {
   "property": "C117",
   "status": "partial",
   "theorems": [
    "C117_finite",
    "C117_list_refuted",
    "C117_full_refuted"
   ],
   "note": "Proved: exactly the types from which no endless chain of types leads on get an encoder. Refuted: that all types do."
  },
  {
   "property": "C118",
   "status": "partial",
   "theorems": [
    "C118_write",
    "C118_rotate",
    "C118_ends",
    "C118_one",
    "C118_asked",
    "C118_served",
    "C118_merged",
    "C118_rests",
    "C118_clean",
    "C118_only",
    "C118_alive",
    "C118_no_race",
    "C118_format",
    "C118_append_refuted",
    "C118_full_refuted",
    "C118_remove_refuted",
    "C118_close_refuted",
    "C118_race_refuted",
    "C118_panic_refuted",
    "C118_reads"
   ],
   "note": "Proved for all interleavings: no call waits, one goroutine, every request is served, the mill comes to rest, and what it leaves behind (C118_clean) as long as the operating system reports no error. Refuted: without that condition (C118_full_refuted); the goroutine never ends; a race for BackupTimeFormat; a file name that makes it panic."
  },
  {
   "property": "C119",
   "status": "proved",
   "theorems": [
    "C119_counted",
    "C119_by_value",
    "C119_panics",
    "C119_kept",
    "C119_strings"
   ],
   "note": "Memory as blocks of bytes, arrays of strings, counters and maps; the program may write to everything that copyDimension did not allocate. C119_by_value links to the model of C34, whose keys are texts."
  },
  {
   "property": "C12",
   "status": "partial",
   "theorems": [
    "C12_rune_partial",
    "C12_roundtrip",
    "C12_end_refuted",
    "C12_empty_read_refuted",
    "C12_full_refuted"
   ],
   "note": "Proved whenever the current chunk is not empty; refuted at end of input (width 1) and after an empty read."
  },
  {
   "property": "C120",
   "status": "partial",
   "theorems": [
    "C120_point",
    "C120_kept",
    "C120_apart",
    "C120_append_last",
    "C120_append_refuted",
    "C120_full_refuted",
    "C120_locked",
    "C120_not_locked"
   ],
   "note": "append to the dimension of a point overwrites the next point of the same export (refuted)."
  },
  {
   "property": "C121",
   "status": "partial",
   "theorems": [
    "C121_sum",
    "C121_self",
    "C121_shared_refuted",
    "C121_full_refuted"
   ],
   "note": "The maps share counters after Add (refuted)."
  },
  {
   "property": "C122",
   "status": "proved",
   "theorems": [
    "C122_values",
    "C122_document",
    "C122_map",
    "C122_written"
   ],
   "note": "Soundness of every encoder against a relation read off memory, and that something is written; package dump as in C115 (it does not compile at this commit; its functions are modelled as written). Exceptions for spoiled numbers and strings are those of C02-C04."
  },
  {
   "property": "C123",
   "status": "partial",
   "theorems": [
    "C123_formats",
    "C123_partial",
    "C123_print",
    "C123_star_refuted",
    "C123_type_refuted",
    "C123_extra_refuted",
    "C123_space_refuted",
    "C123_full_refuted",
    "C123_default",
    "C123_written",
    "C123_fmt"
   ],
   "note": "Proved for formats without * and argument indexes; for %T, %p, * and extra operands the property fails (witnesses). Missing: argument indexes like %[1]d are not modelled."
  },
  {
   "property": "C124",
   "status": "partial",
   "theorems": [
    "C124_alone",
    "C124_partial",
    "C124_race_refuted",
    "C124_full_refuted"
   ],
   "note": "Proved for calls that do not overlap and for an array without room; with room the property fails (witness for every pair of verbs)."
  },
  {
   "property": "C125",
   "status": "partial",
   "theorems": [
    "C125_iff",
    "C125_partial",
    "C125_slice_refuted",
    "C125_struct_refuted",
    "C125_full_refuted",
    "C125_nullable",
    "C125_words"
   ],
   "note": "IsNil looks only at the data word: nil slices are reported not nil, one-pointer structs nil. Exact characterisation in C125_iff; right for pointers, maps, channels, functions (C125_partial). unsafe.Pointer variables are not in the kinds of the model."
  },
  {
   "property": "C126",
   "status": "partial",
   "theorems": [
    "C126_replace",
    "C126_start",
    "C126_missing",
    "C126_either",
    "C126_again",
    "C126_partial",
    "C126_embedded_refuted",
    "C126_full_refuted",
    "C126_routes"
   ],
   "note": "The home page never shows the page that Start loaded (isDebug is constantly true). What it shows instead is proved for every disk."
  },
  {
   "property": "C127",
   "status": "partial",
   "theorems": [
    "C127_list",
    "C127_decided",
    "C127_partial",
    "C127_more_refuted",
    "C127_digit_refuted",
    "C127_full_refuted"
   ],
   "note": "More files are listed than those of indexes (C127_more_refuted); none if the pattern goes on with a digit (C127_digit_refuted). Exact characterisation in C127_list. Patterns with white space, widths or other directives are not modelled."
  },
  {
   "property": "C128",
   "status": "partial",
   "theorems": [
    "C128_blamed",
    "C128_helper",
    "C128_partial",
    "C128_caller",
    "C128_panic_refuted",
    "C128_bind_refuted",
    "C128_full_refuted",
    "C128_places"
   ],
   "note": "Proved for all checks but Panic; for Panic the statement is false (C128_panic_refuted), and the inner Equal of must.JsonEqual is reported in json.go (C128_bind_refuted)."
  },
  {
   "property": "C129",
   "status": "proved",
   "theorems": [
    "C129_forward",
    "C129_complete",
    "C129_values",
    "C129_slice"
   ],
   "note": "For the tables of functions and methods as transcribed; argument types are not checked."
  },
  {
   "property": "C13",
   "status": "partial",
   "theorems": [
    "C13_exact_partial",
    "C13_modulo",
    "C13_overflow_iff",
    "C13_wrap_refuted",
    "C13_full_refuted"
   ],
   "note": "Exact below 2^64; silent wrap-around refutes the full claim and is characterised exactly."
  },
  {
   "property": "C130",
   "status": "partial",
   "theorems": [
    "C130_rounds",
    "C130_partial",
    "C130_full_refuted"
   ],
   "note": "The statement as given is refuted by statistics that panic after the event was written (C130_full_refuted); proved without panics, and a bound of two rounds in general."
  },
  {
   "property": "C131",
   "status": "partial",
   "theorems": [
    "C131_handlers",
    "C131_site",
    "C131_defaults",
    "C131_site_refuted",
    "C131_full_refuted",
    "C131_none"
   ],
   "note": "All proved but for LogSite of functions (nil) and of empty lists (a panic), refuted by C131_site_refuted."
  },
  {
   "property": "C132",
   "status": "partial",
   "theorems": [
    "C132_calendar",
    "C132_parts",
    "C132_layout",
    "C132_others",
    "C132_plain",
    "C132_format",
    "C132_names",
    "C132_found_partial",
    "C132_time_partial",
    "C132_order_partial",
    "C132_distinct",
    "C132_collide_refuted",
    "C132_listed",
    "C132_less",
    "C132_retained_partial",
    "C132_lost_refuted",
    "C132_foreign_refuted",
    "C132_no_year_refuted",
    "C132_zone_refuted",
    "C132_digits_refuted",
    "C132_full_refuted",
    "C132_name"
   ],
   "note": "Proved for patterns of the elements 2006, 01, 02, 15, 04, 05 and .000 without blanks. The full statement is refuted (C132_full_refuted, C132_lost_refuted, C132_foreign_refuted, C132_no_year_refuted, C132_zone_refuted, C132_collide_refuted)."
  },
  {
   "property": "C133",
   "status": "partial",
   "theorems": [
    "C133_read_partial",
    "C133_read",
    "C133_names",
    "C133_age",
    "C133_utc",
    "C133_newest",
    "C133_order_partial",
    "C133_files_partial",
    "C133_local_refuted",
    "C133_put_back_refuted",
    "C133_day_refuted",
    "C133_foreign_refuted",
    "C133_full_refuted"
   ],
   "note": "Exact for UTC with the default format, in years 0 to 9999. Refuted: LocalTime (age, clock put back), coarse formats, files that no logger made. Missing: formats with elements that TimeNameModel only recognises (months by name, zones, 12-hour clock)."
  },
  {
   "property": "C134",
   "status": "partial",
   "theorems": [
    "C134_selected_partial",
    "C134_missing",
    "C134_func",
    "C134_field",
    "C134_address",
    "C134_promoted_refuted",
    "C134_full_refuted",
    "C134_safe_type_refuted",
    "C134_checked"
   ],
   "note": "proved but for two refuted parts: the offset of promoted fields, and Type/UnsafeGet/UnsafeSet of the safe implementation; FieldByName and FieldByNameFunc of package reflect (Go 1.14) are modelled C134_checked gives the messages for wrong arguments"
  },
  {
   "property": "C135",
   "status": "partial",
   "theorems": [
    "C135_records",
    "C135_files",
    "C135_no_failure",
    "C135_close_partial",
    "C135_found_partial",
    "C135_closed",
    "C135_drains",
    "C135_long_refuted",
    "C135_timer_refuted",
    "C135_full_refuted"
   ],
   "note": "All proved but that Close leaves every accepted record in the files: that needs records up to MaxSize and an end within the second (C135_found_partial); refuted otherwise (C135_long_refuted, C135_timer_refuted). Built on the models of C27, C40 and C51."
  },
  {
   "property": "C136",
   "status": "partial",
   "theorems": [
    "C136_records",
    "C136_files",
    "C136_restart",
    "C136_closed",
    "C136_close_partial",
    "C136_found_partial",
    "C136_drains",
    "C136_timer_refuted",
    "C136_purge_refuted",
    "C136_full_refuted"
   ],
   "note": "Proved for every interleaving, with Write of the rotating writer in many steps: order and contents of the records, the files, restart, nothing after Close, the drain. Close writes everything accepted before it only if its second is not over (close_partial, found_partial); when it is over the rest of the queue is thrown away (timer_refuted, full_refuted), and an archive that is removed while it is still written to takes the record with it, without an error (purge_refuted)."
  },
  {
   "property": "C137",
   "status": "partial",
   "theorems": [
    "C137_calls",
    "C137_same_shape_partial",
    "C137_steady",
    "C137_ends",
    "C137_compiled",
    "C137_race_refuted",
    "C137_full_refuted",
    "C137_println_refuted",
    "C137_retains_refuted"
   ],
   "note": "Proved for every interleaving: each call is one after at most one other with its format (calls), steady, ends, compiled. That a call does what it does alone needs all uses of a format to have the same shape (same_shape_partial): else it depends on the interleaving (race_refuted, full_refuted), and Println, whose format is shared by all callers, panics after a value of another type (println_refuted). A writer that keeps the slice sees later texts (retains_refuted)."
  },
  {
   "property": "C138",
   "status": "partial",
   "theorems": [
    "C138_calls",
    "C138_once",
    "C138_twice",
    "C138_panics",
    "C138_bound",
    "C138_ends",
    "C138_cached",
    "C138_redirected",
    "C138_race_refuted",
    "C138_full_refuted",
    "C138_name_refuted"
   ],
   "note": "All but the last sentence is proved for every interleaving. That later calls are handled by place after a panic is refuted (C138_race_refuted: a racing first call overwrites the redirector; C138_name_refuted: handlers are kept by file and line, whatever the event) and proved when no call with the name is between Load and Store (C138_redirected)."
  },
  {
   "property": "C139",
   "status": "partial",
   "theorems": [
    "C139_encoders",
    "C139_exact_partial",
    "C139_marshal_partial",
    "C139_keys",
    "C139_ends",
    "C139_cached",
    "C139_history_refuted",
    "C139_race_refuted",
    "C139_full_refuted"
   ],
   "note": "Refuted in full: the texts that tell that the type of a map key can not be encoded depend on what was encoded before (C139_history_refuted, C139_race_refuted, C139_full_refuted). Proved: everything else about the encoder does not, for all interleavings; C139_exact_partial: it is exactly the encoder made without caches if no type of a map key is one that can not be encoded. C139_marshal_partial: then whole values, with those in interfaces, are written as without caches."
  },
  {
   "property": "C14",
   "status": "partial",
   "theorems": [
    "C14_exact_partial",
    "C14_wrap_refuted",
    "C14_end_refuted",
    "C14_full_refuted"
   ],
   "note": "Exact when the magnitude fits in uint64; refuted by silent wrap-around and by the overflow error being lost at the end of input."
  },
  {
   "property": "C140",
   "status": "partial",
   "theorems": [
    "C140_first",
    "C140_silent",
    "C140_untouched",
    "C140_fields",
    "C140_ends",
    "C140_ends_only",
    "C140_prefix_refuted",
    "C140_full_refuted",
    "C140_key_refuted"
   ],
   "note": "Refuted: that the prefix tells an extension the way to a part (C140_prefix_refuted, C140_full_refuted), and that the answer for an interface type holds for keys (C140_key_refuted). Proved for all types and extensions: the rest. Without the caches (C139): as for a config that has seen no other type."
  },
  {
   "property": "C141",
   "status": "partial",
   "theorems": [
    "C141_lock",
    "C141_counts",
    "C141_check",
    "C141_released",
    "C141_stuck",
    "C141_crash",
    "C141_reentry_refuted",
    "C141_full_refuted",
    "C141_finish",
    "C141_go",
    "C141_hooks"
   ],
   "note": "Everything of the statement is proved for all executions; that the mutex can always become free again is refuted (C141_reentry_refuted): LogInfo is called with the mutex held, so a LogInfo that calls the executor again blocks it for ever (C141_stuck). The context, the sleep between two checks and what is written by the hooks are left out; a panic of LogInfo in a goroutine of the user is taken to be recovered by them."
  },
  {
   "property": "C15",
   "status": "proved",
   "theorems": [
    "C15_any1",
    "C15_any2",
    "C15_space"
   ],
   "note": "For readers that never return data together with an error."
  },
  {
   "property": "C16",
   "status": "partial",
   "theorems": [
    "C16_range_partial",
    "C16_range_iff",
    "C16_skip_partial",
    "C16_space",
    "C16_excludes_iff",
    "C16_includes_exact",
    "C16_skip_includes_exact",
    "C16_includes_refuted",
    "C16_twice_refuted",
    "C16_end_refuted",
    "C16_full_refuted",
    "C16_white_space"
   ],
   "note": "Refuted for include lists and at end of input; every case characterised exactly."
  },
  {
   "property": "C17",
   "status": "proved",
   "theorems": [
    "C17_expr",
    "C17_expr_reader"
   ],
   "note": "Values are int (64-bit, wrapping)."
  },
  {
   "property": "C18",
   "status": "proved",
   "theorems": [
    "C18_first_error",
    "C18_report",
    "C18_ranges",
    "C18_parse"
   ],
   "note": ""
  },
  {
   "property": "C19",
   "status": "proved",
   "theorems": [
    "C19_sprintf_substitutes",
    "C19_sprintf_literal"
   ],
   "note": "For every template of literals and {name} / {name, goTime, layouts} placeholders (white space allowed around the name), all values, and all instances of the json encoder, Time.String, Time.Format, TrimSpace."
  },
  {
   "property": "C20",
   "status": "partial",
   "theorems": [
    "C20_plain_partial",
    "C20_unterminated_refuted",
    "C20_unknown_function_refuted",
    "C20_select_plural_refuted",
    "C20_full_refuted"
   ],
   "note": "Refuted. For templates of plain placeholders, exactly when the call returns (otherwise it panics); unterminated placeholders never return."
  },
  {
   "property": "C21",
   "status": "partial",
   "theorems": [
    "C21_same_shape_partial",
    "C21_other_formats_partial",
    "C21_order_refuted",
    "C21_type_refuted",
    "C21_full_refuted"
   ],
   "note": "Refuted by the cache keyed by the format alone; holds if all earlier calls with the format had the keys at the same places and values of the same types."
  },
  {
   "property": "C22",
   "status": "proved",
   "theorems": [
    "C22_merge_errors",
    "C22_close_all",
    "C22_nil_iff",
    "C22_panic_exact",
    "C22_close",
    "C22_wrap"
   ],
   "note": "Close may depend on everything done before. A panicking Close ends CloseAll (C22_panic_exact says what was closed by then)."
  },
  {
   "property": "C23",
   "status": "proved",
   "theorems": [
    "C23_get",
    "C23_panics",
    "C23_isolated",
    "C23_captured"
   ],
   "note": "Every schedule of lock sections and map accesses; inheriting wrapped functions started at most once each."
  },
  {
   "property": "C24",
   "status": "partial",
   "theorems": [
    "C24_enabled_exact",
    "C24_unnested_partial",
    "C24_no_leak",
    "C24_nested_refuted",
    "C24_shared_refuted",
    "C24_reused_refuted",
    "C24_full_refuted"
   ],
   "note": "Refuted for nested wrapped functions and for one wrapped function started twice; exact condition and the unnested case proved."
  },
  {
   "property": "C25",
   "status": "proved",
   "theorems": [
    "C25_stop_and_wait",
    "C25_gives_up",
    "C25_check_exact",
    "C25_panics_logged",
    "C25_can_leave",
    "C25_cancelled"
   ],
   "note": "LogInfo and LogPanic are assumed to return."
  },
  {
   "property": "C26",
   "status": "proved",
   "theorems": [
    "C26_linearizable",
    "C26_no_crash",
    "C26_progress",
    "C26_exclusive",
    "C26_conflict"
   ],
   "note": "The lock based version; the Go 1.9 version only embeds sync.Map. Keys are hashable."
  },
  {
   "property": "C27",
   "status": "proved",
   "theorems": [
    "C27_in_order",
    "C27_all_delivered",
    "C27_can_drain",
    "C27_no_drop",
    "C27_waits_only_when_full"
   ],
   "note": "Delivery is told as: nothing is outside the queue and the goroutine's hands, and the goroutine can always go on by itself."
  },
  {
   "property": "C28",
   "status": "proved",
   "theorems": [
    "C27_in_order",
    "C28_accounted",
    "C28_dropped_when_full",
    "C28_call_order",
    "C28_never_waits",
    "C28_default_dropped",
    "C28_queue_length"
   ],
   "note": ""
  },
  {
   "property": "C29",
   "status": "partial",
   "theorems": [
    "C29_copying_sink",
    "C29_copying_sink_all",
    "C29_async_private",
    "C29_witch_partial",
    "C29_witch_refuted",
    "C29_full_refuted",
    "C29_witch_overwrites_refuted"
   ],
   "note": "Proved for sinks that copy, refuted for the witch event queue, which keeps the pooled buffer."
  },
  {
   "property": "C30",
   "status": "partial",
   "theorems": [
    "C30_below",
    "C30_below_call",
    "C30_reaches",
    "C30_reaches_call",
    "C30_reaches_new",
    "C30_reaches_call_new",
    "C30_levels",
    "C30_timers",
    "C30_program",
    "C30_separate_partial",
    "C30_history_refuted",
    "C30_failure_hidden_refuted",
    "C30_collector_refuted",
    "C30_full_refuted"
   ],
   "note": "Gating and delivery hold for every sink and handler; whole programs with the default configuration are characterised exactly. The full claim is refuted: the kind of the first call under a name decides for the others, failing XxxCall events are hidden when the level is above 35, and with a collector XxxCall events are output at their own level and never counted."
  },
  {
   "property": "C31",
   "status": "partial",
   "theorems": [
    "C31_failure_partial",
    "C31_success_partial",
    "C31_no_false_failure",
    "C31_format_refuted",
    "C31_full_refuted"
   ],
   "note": "For sinks that make handlers, handlers that end, and texts that can be formatted; otherwise refuted: an event name msgfmt panics on or never finishes takes the call with it."
  },
  {
   "property": "C32",
   "status": "partial",
   "theorems": [
    "C32_returns_partial",
    "C32_call_returns_partial",
    "C32_retried",
    "C32_told",
    "C32_key_refuted",
    "C32_full_refuted"
   ],
   "note": "Panics while handling are survived, with the exact effects; panics while making a handler reach the caller (refuted: a property key that is not a string)."
  },
  {
   "property": "C33",
   "status": "partial",
   "theorems": [
    "C33_ctx_idempotent",
    "C33_ctx_values",
    "C33_added",
    "C33_derived",
    "C33_ctx_of_derived_refuted",
    "C33_add_nil_refuted",
    "C33_no_context_refuted",
    "C33_compact_refuted",
    "C33_added_later_refuted",
    "C33_full_refuted",
    "C33_no_log_context"
   ],
   "note": "Proved: Ctx is idempotent and keeps foreign values, properties accumulate in order in the nearest log context over any sequence of calls. Refuted: the hrf format shows only the properties the context had at the first event of the name, compact shows none, an event without context panics after one with; Ctx of a derived context starts empty; Add to a nil Context panics."
  },
  {
   "property": "C34",
   "status": "partial",
   "theorems": [
    "C34_conserved_partial",
    "C34_flushed_partial",
    "C34_exclusive",
    "C34_dimension",
    "C34_precision_refuted",
    "C34_full_refuted",
    "C34_float64"
   ],
   "note": "Conservation holds for all interleavings as long as no more than 2^53 events are counted per dimension; beyond that float64 loses events (refuted witness)."
  },
  {
   "property": "C35",
   "status": "partial",
   "theorems": [
    "C35_once_partial",
    "C35_full_refuted",
    "C35_ends",
    "C35_begins",
    "C35_can_end"
   ],
   "note": "Refuted as stated: at most one export ever begins."
  },
  {
   "property": "C36",
   "status": "partial",
   "theorems": [
    "C36_files",
    "C36_records",
    "C36_bytes",
    "C36_kept",
    "C36_purge_refuted",
    "C36_full_refuted",
    "C36_collision_refuted",
    "C36_returns",
    "C36_writes"
   ],
   "note": "Proved for every interleaving of Write with the background goroutine, every starting file system, without I/O errors and with new archive names: archives in order and the current file are the records in order, each contiguous; with I/O errors C36_files still places every chunk that reached the disk. Removed archives are excepted. Refuted without exception for retention: with MaxArchivesCount 0 a record acknowledged by Write can go to an already removed file; with colliding names (coarse time pattern) an archive is overwritten."
  },
  {
   "property": "C37",
   "status": "partial",
   "theorems": [
    "C37_boundary",
    "C37_partial",
    "C37_fraction_refuted",
    "C37_years_refuted",
    "C37_full_refuted",
    "C37_zero_refuted",
    "C37_negative_refuted"
   ],
   "note": "Proved exactly for whole-second clock readings between 1970 and 2262, and up to less than one second for nanosecond readings. Refuted for fractions of seconds, before 1970, after 2262 (overflow) and interval 0 (panic). The writer additionally waits a random time, see C65_wait."
  },
  {
   "property": "C38",
   "status": "partial",
   "theorems": [
    "C38_newest",
    "C38_files",
    "C38_negative_refuted",
    "C38_spare_refuted",
    "C38_full_refuted"
   ],
   "note": "Proved for every maximum of at least 0, including the listing by NameByTime with any sorting function. Refuted for every negative maximum (panic, or elements behind the slice)."
  },
  {
   "property": "C39",
   "status": "partial",
   "theorems": [
    "C39_size",
    "C39_record",
    "C39_refused",
    "C39_max",
    "C39_huge_refuted",
    "C39_full_refuted",
    "C39_negative_refuted",
    "C39_accepts"
   ],
   "note": "Proved for every history of writes, rotations, restarts, mill operations and I/O errors with 0 <= maximum < 2^62 bytes (MaxSize below 2^42 megabytes); refuted for MaxSize of 2^43 megabytes and more (the product wraps around) and for negative MaxSize: every record is refused."
  },
  {
   "property": "C40",
   "status": "partial",
   "theorems": [
    "C40_files",
    "C40_returns",
    "C40_collision_refuted",
    "C40_full_refuted",
    "C40_stat_refuted"
   ],
   "note": "Proved for every history with I/O errors if the backup names are new and os.Stat does not fail for an existing log; refuted if two rotations share a timestamp (the backup is replaced) and if os.Stat fails in openNew (the log is truncated)."
  },
  {
   "property": "C41",
   "status": "partial",
   "theorems": [
    "C41_backups",
    "C41_choice",
    "C41_others",
    "C41_spares",
    "C41_total",
    "C41_once",
    "C41_age_refuted",
    "C41_full_refuted",
    "C41_panic_refuted",
    "C41_compress"
   ],
   "note": "Exact for MaxAge up to 106751 days; from 106752 days on the duration wraps around and every backup is removed. A file name in which prefix and extension overlap makes the mill panic (only if the extension of the log contains -)."
  },
  {
   "property": "C42",
   "status": "partial",
   "theorems": [
    "C42_roundtrip",
    "C42_inverse",
    "C42_rejects",
    "C42_names",
    "C42_panics",
    "C42_safe",
    "C42_panic_refuted",
    "C42_full_refuted",
    "C42_base"
   ],
   "note": "Round trip, rejection and distinct names proved for all names and times; the panic is characterised exactly and shown possible."
  },
  {
   "property": "C43",
   "status": "partial",
   "theorems": [
    "C43_append",
    "C43_grow",
    "C43_regrow",
    "C43_truncate",
    "C43_set",
    "C43_get",
    "C43_capacity",
    "C43_linear",
    "C43_history",
    "C43_safe",
    "C43_index_refuted",
    "C43_outside_refuted",
    "C43_stale_refuted",
    "C43_forever_refuted",
    "C43_diverges_refuted",
    "C43_overflow_refuted",
    "C43_full_refuted",
    "C43_nil"
   ],
   "note": "Append, Grow, SetIndex, GetIndex, SetNil, MakeSlice and slice expressions over a memory of arrays. Proved for every wf header: exact elements, frame of the writes, capacity in [n,2n), linear cost of appending; for every program of unshared slices the elements and values read; for every program with in-range indices no access outside an array. Refuted: indices are not checked (another slice is overwritten, memory outside the array), MakeSlice with length > cap and Grow with a negative length are accepted, Grow shows stale elements, the capacity loop does not end from one capacity near 2^63, the length overflows. Not modelled: element types other than one, assertType, the garbage collector."
  },
  {
   "property": "C44",
   "status": "partial",
   "theorems": [
    "C44_blocks",
    "C44_method",
    "C44_best",
    "C44_first",
    "C44_popular_refuted",
    "C44_full_refuted"
   ],
   "note": "Valid blocks, and exactly the lines matched by the documented method (Ratcliff/Obershelp with junk), for every history of calls. The documented longest common run is refuted for NewMatcher: lines that make up more than 1% of 200 lines or more are ignored; proved when no line is junk or popular."
  },
  {
   "property": "C45",
   "status": "partial",
   "theorems": [
    "C45_codes",
    "C45_same",
    "C45_after_grouped_refuted",
    "C45_full_refuted",
    "C45_tags"
   ],
   "note": "For every history of calls without GetGroupedOpCodes. Refuted after GetGroupedOpCodes, which cuts off the cached op codes."
  },
  {
   "property": "C46",
   "status": "partial",
   "theorems": [
    "C46_changes",
    "C46_groups",
    "C46_again",
    "C46_later_refuted",
    "C46_huge_refuted",
    "C46_full_refuted"
   ],
   "note": "The changes for every n and every history; the context for n < 2^62 and histories without an earlier GetGroupedOpCodes. Refuted otherwise: a larger n later gives no more context, n = 2^62 gives a group without a change."
  },
  {
   "property": "C47",
   "status": "partial",
   "theorems": [
    "C47_text",
    "C47_verbatim_partial",
    "C47_line",
    "C47_percent_refuted",
    "C47_done_refuted",
    "C47_full_refuted"
   ],
   "note": "The text is that of a patch from A to B, each line as fmt.Sprintf shows it; verbatim for lines without '%', refuted for lines with one. Sprintf with widths, precisions, argument indexes or other verbs after '%' is a parameter of the model."
  },
  {
   "property": "C48",
   "status": "partial",
   "theorems": [
    "C48_never_json_refuted",
    "C48_full_refuted",
    "C48_text"
   ],
   "note": "Refuted for every event: no record is JSON, whatever the event, names and values, as long as the function name has no double quote and the timestamp is a decimal number."
  },
  {
   "property": "C49",
   "status": "partial",
   "theorems": [
    "C49_bytes_shown_partial",
    "C49_clear_partial",
    "C49_loss_refuted",
    "C49_full_refuted"
   ],
   "note": "Refuted; exact characterisation (iff) of the byte slices shown faithfully."
  },
  {
   "property": "C50",
   "status": "partial",
   "theorems": [
    "C50_fprintf",
    "C50_fprintln",
    "C50_fprintln_many",
    "C50_fprintln_nothing_refuted",
    "C50_full_refuted"
   ],
   "note": "Refuted for Fprintln without values: the newline goes to the standard output instead of the writer."
  },
  {
   "property": "C51",
   "status": "partial",
   "theorems": [
    "C51_close_partial",
    "C51_nothing_after_partial",
    "C51_timeout_refuted",
    "C51_panic_refuted",
    "C51_full_refuted",
    "C51_after_close_refuted"
   ],
   "note": "Refuted: the drain is limited to one second and ends with a panic of the underlying writer."
  },
  {
   "property": "C52",
   "status": "partial",
   "theorems": [
    "C52_order",
    "C52_response",
    "C52_complete",
    "C52_finishes",
    "C52_write",
    "C52_dropped",
    "C52_json_refuted",
    "C52_json_partial",
    "C52_records_refuted",
    "C52_full_refuted"
   ],
   "note": "Queue, limits, drop counter and exactly-once delivery proved for every interleaving; that the response is JSON is refuted (two opening brackets, one closing). Left out: response header, broken connections, LogPanic; jsoniter's stream is taken to write the bytes it is given. What becomes of buffers used again after Write is the subject of the pool properties."
  },
  {
   "property": "C53",
   "status": "partial",
   "theorems": [
    "C53_released_partial",
    "C53_panic_iff",
    "C53_blocked_refuted",
    "C53_full_refuted"
   ],
   "note": "Refuted as stated: a dimension property that is not a string leaves the shard locked for ever; proved otherwise."
  },
  {
   "property": "C54",
   "status": "partial",
   "theorems": [
    "C54_unnamed_refuted",
    "C54_full_refuted",
    "C54_unknown_aggregation",
    "C54_no_collector",
    "C54_handler"
   ],
   "note": "Refuted as stated: every point has the empty event name; the handlers created are characterised. C54_handler: what HandlerOf gives for every site whose first event is a list of pairs, with the aggregation that it asks for by Agg or by its first property \"agg\"."
  },
  {
   "property": "C55",
   "status": "partial",
   "theorems": [
    "C55_redirected",
    "C55_redirected_new",
    "C55_one_place_partial",
    "C55_second_place_refuted",
    "C55_logpanic_refuted",
    "C55_logpanic_nothing",
    "C55_full_refuted",
    "C55_remembered"
   ],
   "note": "Exact for events logged from one place each; refuted for a second place and for LogPanic."
  },
  {
   "property": "C56",
   "status": "partial",
   "theorems": [
    "C56_trace",
    "C56_not_suppressed",
    "C56_others_refuted",
    "C56_full_refuted"
   ],
   "note": "Holds for Trace only."
  },
  {
   "property": "C57",
   "status": "partial",
   "theorems": [
    "C57_hrf_partial",
    "C57_hrf_no_context_partial",
    "C57_level_refuted",
    "C57_shared_name_refuted",
    "C57_duplicate_refuted",
    "C57_full_refuted",
    "C57_error_panics_refuted"
   ],
   "note": "Exact text proved for all events whose formats are used with one shape only and whose names are distinct identifiers. Missing and refuted: shared names at different places, duplicate names; the level is never shown. An error whose Error method panics makes the formatter panic."
  },
  {
   "property": "C58",
   "status": "partial",
   "theorems": [
    "C58_compact_partial",
    "C33_compact_refuted",
    "C58_levels"
   ],
   "note": "Exact text proved under the same conditions as C57; the properties of the context are not shown."
  },
  {
   "property": "C59",
   "status": "partial",
   "theorems": [
    "C59_program_partial",
    "C59_two_events_refuted",
    "C59_wrong_value_refuted",
    "C59_name_refuted",
    "C59_full_refuted"
   ],
   "note": "Proved for all programs in one goroutine whose property names are distinct identifiers and whose formats are used with one shape only; refuted without either. Contexts without properties."
  },
  {
   "property": "C60",
   "status": "partial",
   "theorems": [
    "C60_printf_partial",
    "C60_message_refuted",
    "C60_full_refuted"
   ],
   "note": "Proved with the message as a []byte (shown escaped, if it is not one of the texts that lose bytes, see C49); refuted for the message as text."
  },
  {
   "property": "C61",
   "status": "partial",
   "theorems": [
    "C61_written",
    "C61_short_refuted",
    "C61_full_refuted"
   ],
   "note": "Refuted as stated; proved what can happen, for every writer that takes all bytes of a write or fails."
  },
  {
   "property": "C62",
   "status": "partial",
   "theorems": [
    "C62_text",
    "C62_sides",
    "C62_verbatim_partial",
    "C62_percent_refuted"
   ],
   "note": "Verbatim for lines without '%', refuted for lines with one."
  },
  {
   "property": "C63",
   "status": "partial",
   "theorems": [
    "C63_lines",
    "C63_extra_refuted",
    "C63_full_refuted"
   ],
   "note": "Refuted as stated; proved what the lines are."
  },
  {
   "property": "C64",
   "status": "proved",
   "theorems": [
    "C64_bounds",
    "C64_value",
    "C64_one",
    "C64_zero"
   ],
   "note": "IEEE-754 arithmetic is Flocq's; stdlib axioms of the real numbers."
  },
  {
   "property": "C65",
   "status": "partial",
   "theorems": [
    "C65_size_refuted",
    "C65_stat_refuted",
    "C65_reopens",
    "C65_wait",
    "C65_next",
    "C65_directory_refuted",
    "C65_full_refuted",
    "C65_race_refuted",
    "C65_retry_refuted",
    "C65_negative_refuted",
    "C65_threshold",
    "C65_stat_fails"
   ],
   "note": "The record after a completed rotation goes to a new file, the wait is between once and twice the given duration. Refuted: triggers reported by UpdateStat never rotate and are asked only until the first trigger or rotation; every later Write reopens the file; a rotation can be lost in a race; missing directory taken for success; one-minute retry ignored."
  },
  {
   "property": "C66",
   "status": "partial",
   "theorems": [
    "C66_safe",
    "C66_agree",
    "C66_panics",
    "C66_grow_refuted",
    "C66_pointer_refuted",
    "C66_full_refuted"
   ],
   "note": "safe_slice.go over the same memory model; the growth policy of reflect.Append is any function that gives enough. Agreement is proved for programs without Grow over unshared slices; refuted in general."
  },
  {
   "property": "C67",
   "status": "partial",
   "theorems": [
    "C67_unknown",
    "C67_report",
    "C67_refuted",
    "C67_full_refuted",
    "C67_partial"
   ],
   "note": "The shown lines are characterised for every file; that they are those of the call is refuted for parentheses in literals and comments and proved without quotes and slashes. bytes.TrimSpace and the file system are parameters."
  },
  {
   "property": "C68",
   "status": "partial",
   "theorems": [
    "C68_result",
    "C68_order",
    "C68_other",
    "C68_refuted",
    "C68_full_refuted",
    "C68_partial"
   ],
   "note": "Exact result (passes, panics, fails) for all documents and map orders; that it never panics and handles any argument is refuted. json.Unmarshal is a parameter, numbers are compared as integers stand for float64 values."
  },
  {
   "property": "C69",
   "status": "partial",
   "theorems": [
    "C69_result",
    "C69_other",
    "C69_order_refuted",
    "C69_panics_refuted",
    "C69_ends_refuted",
    "C69_full_refuted"
   ],
   "note": "Exact for expected documents without variables for keys, on a heap with the sharing the code makes; with variables for keys order independence and termination are refuted. json.Unmarshal is a parameter."
  },
  {
   "property": "C70",
   "status": "partial",
   "theorems": [
    "C70_reads_partial",
    "C70_json_partial",
    "C70_nil_refuted",
    "C70_full_refuted",
    "C70_nil_error_refuted",
    "C70_stringer_key_refuted",
    "C70_pointer_key_refuted",
    "C70_unsafe_error_refuted",
    "C70_variable"
   ],
   "note": "Proved at the level of memory for every type and value whose map keys are plain and whose unsafe.Pointer-only types have no Error/MarshalJSON; the code violates it outside of that."
  },
  {
   "property": "C71",
   "status": "partial",
   "theorems": [
    "C71_partial",
    "C71_cyclic_refuted",
    "C71_full_refuted"
   ],
   "note": "Ends for every finite value; endless for a cyclic one."
  },
  {
   "property": "C72",
   "status": "partial",
   "theorems": [
    "C72_iff_partial",
    "C72_unsafe_pointer_refuted",
    "C72_full_refuted"
   ],
   "note": "Exact condition proved; violated for types that are just an unsafe.Pointer."
  },
  {
   "property": "C73",
   "status": "partial",
   "theorems": [
    "C73_set_partial",
    "C73_types",
    "C73_types_refuted",
    "C73_full_refuted",
    "C73_new",
    "C73_snapshot_partial",
    "C73_shared",
    "C73_snapshot_refuted",
    "C73_snapshot_full_refuted",
    "C73_boxed"
   ],
   "note": "Set is proved for variables of the type; the safe Set takes other types and the unsafe Indirect shares memory (refuted)"
  },
  {
   "property": "C74",
   "status": "partial",
   "theorems": [
    "C74_safe",
    "C74_field_partial",
    "C74_iff_partial",
    "C74_promoted_refuted",
    "C74_full_refuted",
    "C74_unexported_refuted"
   ],
   "note": "refuted for promoted fields in the unsafe implementation; exact condition proved for embedded structs; unexported fields panic in the safe one"
  },
  {
   "property": "C75",
   "status": "partial",
   "theorems": [
    "C75_iff_partial",
    "C75_typed_nil_refuted",
    "C75_full_refuted",
    "C75_others",
    "C75_unsafe_pointer_refuted"
   ],
   "note": "refuted for interface{} holding a nil pointer and for unsafe.Pointer"
  },
  {
   "property": "C76",
   "status": "partial",
   "theorems": [
    "C76_inside_partial",
    "C76_outside",
    "C76_bounds_refuted",
    "C76_full_refuted"
   ],
   "note": "in range proved; out of range refuted for the unsafe implementation"
  },
  {
   "property": "C77",
   "status": "partial",
   "theorems": [
    "C77_set_partial",
    "C77_get",
    "C77_history_partial",
    "C77_nil_map",
    "C77_nil_key",
    "C77_nil_element",
    "C77_unhashable",
    "C77_moved_refuted",
    "C77_full_refuted",
    "C77_try_refuted"
   ],
   "note": "proved for elements from variables outside of the map; refuted for pointers into the map, and for the safe TryGetIndex; keys that cannot be hashed panic in every operation (C77_unhashable); keys of other assignable types not modelled"
  },
  {
   "property": "C78",
   "status": "partial",
   "theorems": [
    "C78_unsafe",
    "C78_safe_partial",
    "C78_nan_refuted",
    "C78_full_refuted",
    "C78_delete_refuted",
    "C78_safe_now"
   ],
   "note": "the safe iterator is refuted for keys that do not equal themselves; changes of the map during an unsafe iteration not modelled C78_safe_now says what the safe iterator gives whatever happened to the map since it was made"
  },
  {
   "property": "C79",
   "status": "partial",
   "theorems": [
    "C79_write",
    "C79_copy",
    "C79_iff_partial",
    "C79_stale_refuted",
    "C79_full_refuted"
   ],
   "note": "refuted after the runtime moved the element; exact condition proved"
  },
  {
   "property": "C80",
   "status": "partial",
   "theorems": [
    "C80_case_partial",
    "C80_children",
    "C80_go",
    "C80_cleanup",
    "C80_nested",
    "C80_nested_refuted",
    "C80_full_refuted"
   ],
   "note": "Proved for tests without nested Case/WithGls in the same goroutine; with them refuted: the inner one removes the t of the outer."
  },
  {
   "property": "C81",
   "status": "partial",
   "theorems": [
    "C81_checks",
    "C81_check",
    "C81_pairs",
    "C81_nil_partial",
    "C81_unsafe_refuted",
    "C81_full_refuted",
    "C81_kinds"
   ],
   "note": "Exact; refuted for the nil unsafe.Pointer, which Nil does not accept."
  },
  {
   "property": "C82",
   "status": "partial",
   "theorems": [
    "C82_panic_partial",
    "C82_no_caller",
    "C82_nil_refuted",
    "C82_full_refuted"
   ],
   "note": "Exact; refuted for panics with nil values."
  },
  {
   "property": "C83",
   "status": "partial",
   "theorems": [
    "C83_must_partial",
    "C83_should_partial",
    "C83_should_nil",
    "C83_variadic_nil_refuted",
    "C83_variadic_any_refuted",
    "C83_full_refuted",
    "C83_result_partial",
    "C83_no_error",
    "C83_typed_nil_refuted",
    "C83_result_full_refuted"
   ],
   "note": "Exact for arguments without nil in the variadic part (must) or without nil (should); refuted for those and for nil pointers of error types."
  },
  {
   "property": "C84",
   "status": "partial",
   "theorems": [
    "C84_set_partial",
    "C84_nil_result",
    "C84_nil_refuted",
    "C84_full_refuted"
   ],
   "note": "Exact; refuted for nil results."
  },
  {
   "property": "C85",
   "status": "partial",
   "theorems": [
    "C85_lines",
    "C85_report_partial",
    "C85_whole",
    "C85_bad_message",
    "C85_cut_refuted",
    "C85_full_refuted"
   ],
   "note": "The exact text of every report; that all lines are shown is refuted (lines of 64 KiB and what follows are dropped)."
  },
  {
   "property": "C86",
   "status": "partial",
   "theorems": [
    "C86_equal",
    "C86_notequal",
    "C86_exactly",
    "C86_values_partial",
    "C86_asymmetric_refuted",
    "C86_full_refuted",
    "C86_kinds"
   ],
   "note": "Equal, NotEqual and Exactly proved over DeepEqual as a parameter; that EqualValues is symmetric is refuted. The diff in the failure text is not modelled here."
  },
  {
   "property": "C87",
   "status": "partial",
   "theorems": [
    "C87_empty_partial",
    "C87_sound",
    "C87_endless",
    "C87_cycle_refuted",
    "C87_full_refuted",
    "C87_len",
    "C87_zero"
   ],
   "note": "Exact for all values; that Empty always ends is refuted for pointer cycles."
  },
  {
   "property": "C88",
   "status": "partial",
   "theorems": [
    "C88_contains",
    "C88_notcontains_partial",
    "C88_value_refuted",
    "C88_full_refuted"
   ],
   "note": "Exact for all containers; that only strings are found in strings is refuted."
  },
  {
   "property": "C89",
   "status": "partial",
   "theorems": [
    "C89_subset_partial",
    "C89_notsubset_partial",
    "C89_silent_refuted",
    "C89_silent_message_refuted",
    "C89_full_refuted"
   ],
   "note": "Exact for two values that are not nil; that every failure is reported is refuted."
  },
  {
   "property": "C90",
   "status": "partial",
   "theorems": [
    "C90_lists",
    "C90_sound",
    "C90_others_partial",
    "C90_zero_refuted",
    "C90_full_refuted"
   ],
   "note": "Exact for lists; that only lists pass is refuted."
  },
  {
   "property": "C91",
   "status": "partial",
   "theorems": [
    "C91_rounded",
    "C91_bounds_partial",
    "C91_integers",
    "C91_not_numbers",
    "C91_infinities",
    "C91_nan_delta_refuted",
    "C91_large_refuted",
    "C91_full_refuted",
    "C91_slice_partial",
    "C91_not_slices",
    "C91_prefix_refuted",
    "C91_slice_full_refuted",
    "C91_maps",
    "C91_map_keys",
    "C91_map_nan_refuted",
    "C91_map_full_refuted"
   ],
   "note": "Exact for all values; exactness for large integers, equal lengths of slices and reflexivity for maps are refuted."
  },
  {
   "property": "C92",
   "status": "partial",
   "theorems": [
    "C92_rounded_partial",
    "C92_zero",
    "C92_nan_refuted",
    "C92_full_refuted",
    "C92_overflow_refuted",
    "C92_slice_partial",
    "C92_not_slices",
    "C92_swapped_refuted",
    "C92_slice_full_refuted"
   ],
   "note": "Exact if the difference does not overflow; the rejection of NaN and the agreement of InEpsilonSlice with InEpsilon are refuted."
  },
  {
   "property": "C93",
   "status": "partial",
   "theorems": [
    "C93_panics_partial",
    "C93_exits",
    "C93_value",
    "C93_nil_refuted",
    "C93_full_refuted"
   ],
   "note": "Exact; that every panic counts is refuted for panic(nil)."
  },
  {
   "property": "C94",
   "status": "partial",
   "theorems": [
    "C94_within_partial",
    "C94_saturation_refuted",
    "C94_full_refuted"
   ],
   "note": "Exact for all durations but the two extreme ones, for which it is refuted."
  },
  {
   "property": "C95",
   "status": "proved",
   "theorems": [
    "C95_errors",
    "C95_booleans"
   ],
   "note": "Exact."
  },
  {
   "property": "C96",
   "status": "partial",
   "theorems": [
    "C96_nil_partial",
    "C96_unsafe",
    "C96_full_refuted",
    "C96_istype",
    "C96_implements",
    "C96_implements_panics"
   ],
   "note": "Exact for all values; the nil unsafe.Pointer is not taken for nil (refuted). reflect's Implements and Elem are parameters."
  },
  {
   "property": "C97",
   "status": "partial",
   "theorems": [
    "C97_regexp",
    "C97_bad",
    "C97_json",
    "C97_bytes_refuted",
    "C97_full_refuted"
   ],
   "note": "Exact over regexp, fmt.Sprint and json.Unmarshal as parameters; refuted for bytes, which are matched as the list of their numbers."
  },
  {
   "property": "C98",
   "status": "partial",
   "theorems": [
    "C98_failnow",
    "C98_never_passes",
    "C98_format_values",
    "C98_format_rest",
    "C98_format_times",
    "C98_format_http",
    "C98_text_partial",
    "C98_text_bare",
    "C98_full_refuted"
   ],
   "note": "All functions of assertion_format.go; refuted: a message without arguments is not formatted."
  },
  {
   "property": "C99",
   "status": "partial",
   "theorems": [
    "C99_status_partial",
    "C99_unbuilt",
    "C99_ends",
    "C99_exclusive",
    "C99_class_refuted",
    "C99_full_refuted"
   ],
   "note": "Exact: 200 to 206 and 300 to 307; the other statuses of the 200s and 300s are refuted."
  }
 ]
}