{
 "claims": [
  {
   "property": "C01",
   "status": "proved",
   "theorems": [
    "C01_requests_from_stream",
    "C01_segmentation_independent",
    "C01_nothing_missed",
    "C01_function_of_stream"
   ],
   "note": ""
  },
  {
   "property": "C02",
   "status": "proved",
   "theorems": [
    "C02_accepts_grammar",
    "C02_rejects",
    "C02_first_offending_byte",
    "C02_pending",
    "C02_incremental"
   ],
   "note": ""
  },
  {
   "property": "C03",
   "status": "proved",
   "theorems": [
    "C03_fields"
   ],
   "note": ""
  },
  {
   "property": "C04",
   "status": "partial",
   "theorems": [
    "C04_uri_partial",
    "C04_uri_refuted"
   ],
   "note": "Proved except for a target with an empty query (\"/a?\"), where the text is corrupted (refuted)."
  },
  {
   "property": "C05",
   "status": "proved",
   "theorems": [
    "C05_malformed_400",
    "C05_incomplete_waits"
   ],
   "note": ""
  },
  {
   "property": "C06",
   "status": "proved",
   "theorems": [
    "C06_accepted",
    "C06_long_head_400",
    "C06_endless_400",
    "C06_bounded_wait"
   ],
   "note": ""
  },
  {
   "property": "C07",
   "status": "proved",
   "theorems": [
    "C07_length",
    "C07_none_empty",
    "C07_refused"
   ],
   "note": ""
  },
  {
   "property": "C08",
   "status": "proved",
   "theorems": [
    "C08_content",
    "C08_waits"
   ],
   "note": ""
  },
  {
   "property": "C09",
   "status": "proved",
   "theorems": [
    "C09_before_ready",
    "C09_while_waiting",
    "C09_never_otherwise"
   ],
   "note": ""
  },
  {
   "property": "C10",
   "status": "partial",
   "theorems": [
    "C10_fresh_partial",
    "C10_refuted"
   ],
   "note": "Proved for every closed history and every continuation, up to accesses to released or shared memory; C10_refuted: after a request of more than 32768 bytes the recycled connection writes into Qt's shared null buffer."
  },
  {
   "property": "C11",
   "status": "proved",
   "theorems": [
    "C11_writeHeaders",
    "C11_writeResponse"
   ],
   "note": ""
  },
  {
   "property": "C12",
   "status": "proved",
   "theorems": [
    "C12_well_formed",
    "C12_one_head",
    "C12_version_clean"
   ],
   "note": ""
  },
  {
   "property": "C13",
   "status": "proved",
   "theorems": [
    "C13_writeContent",
    "C13_endContent",
    "C13_whole_life",
    "C13_under_way"
   ],
   "note": ""
  },
  {
   "property": "C14",
   "status": "proved",
   "theorems": [
    "C14_writeContent",
    "C14_endContent",
    "C14_encoding",
    "C14_whole_life",
    "C14_decodes_once"
   ],
   "note": ""
  },
  {
   "property": "C15",
   "status": "proved",
   "theorems": [
    "C15_writeHeaders",
    "C15_writeResponse",
    "C15_whole_life"
   ],
   "note": ""
  },
  {
   "property": "C16",
   "status": "proved",
   "theorems": [
    "C16_after_completed"
   ],
   "note": ""
  },
  {
   "property": "C17",
   "status": "proved",
   "theorems": [
    "C17_wrong_state"
   ],
   "note": ""
  },
  {
   "property": "C18",
   "status": "proved",
   "theorems": [
    "C18_signal_order",
    "C18_nothing_after_closed",
    "C18_devices_released"
   ],
   "note": ""
  },
  {
   "property": "C19",
   "status": "proved",
   "theorems": [
    "C19_response_order"
   ],
   "note": ""
  },
  {
   "property": "C20",
   "status": "partial",
   "theorems": [
    "C20_no_leak_partial",
    "C20_leak_refuted",
    "C20_use_after_free_refuted"
   ],
   "note": "Proved for handlers that do not give content to HEAD or zero-length responses; otherwise the content leaks into the next response, or released memory is read (both refuted)."
  },
  {
   "property": "C21",
   "status": "proved",
   "theorems": [
    "C21_shut_drained",
    "C21_flushing_then_closed",
    "C21_bytesWritten_closes",
    "C21_bytesWritten_waits",
    "C21_drain_closes",
    "C21_accounting",
    "C21_everything_taken"
   ],
   "note": ""
  },
  {
   "property": "C22",
   "status": "partial",
   "theorems": [
    "C22_no_null_deref_partial",
    "C22_close_in_completed_refuted"
   ],
   "note": "Proved except for close() called inside requestCompleted, which is refuted."
  },
  {
   "property": "C23",
   "status": "partial",
   "theorems": [
    "C23_known",
    "C23_unknown",
    "C23_unknown_refuted"
   ],
   "note": "Known codes proved; for codes without a message the status line has no code (refuted)."
  },
  {
   "property": "C24",
   "status": "partial",
   "theorems": [
    "C24_value_partial",
    "C24_truncated_refuted",
    "C24_undefined_refuted"
   ],
   "note": "Proved for announced lengths that fit in an int; larger ones are truncated, and one value is undefined behaviour (both refuted)."
  },
  {
   "property": "C25",
   "status": "proved",
   "theorems": [
    "C25_request_params",
    "C25_request_params_stable"
   ],
   "note": ""
  },
  {
   "property": "C26",
   "status": "proved",
   "theorems": [
    "C26_lookup_first",
    "C26_lookup_none",
    "C26_set_then_get"
   ],
   "note": ""
  },
  {
   "property": "C27",
   "status": "proved",
   "theorems": [
    "C27_memory_safe",
    "C27_decode",
    "C27_roundtrip",
    "C27_total",
    "C27_malformed_refuted"
   ],
   "note": "All of the statement; the malformed-escape behaviour is pinned by C27_total and shown by C27_malformed_refuted."
  },
  {
   "property": "C28",
   "status": "proved",
   "theorems": [
    "C28_ascii_ci",
    "C28_lowercase_token"
   ],
   "note": ""
  },
  {
   "property": "C29",
   "status": "proved",
   "theorems": [
    "C29_numbers",
    "C29_readback",
    "C29_int_min_refuted"
   ],
   "note": "INT_MIN is excluded by the property; C29_int_min_refuted shows it is undefined behaviour."
  },
  {
   "property": "C30",
   "status": "proved",
   "theorems": [
    "C30_first_value",
    "C30_absent",
    "C30_token_lookup",
    "C30_all_values",
    "C30_test"
   ],
   "note": ""
  },
  {
   "property": "C31",
   "status": "proved",
   "theorems": [
    "C31_raw_header",
    "C31_no_colon",
    "C31_roundtrip",
    "C31_surrounding_blanks_refuted"
   ],
   "note": "C31_surrounding_blanks_refuted: trailing blanks are kept."
  },
  {
   "property": "C32",
   "status": "proved",
   "theorems": [
    "C32_status_table",
    "C32_message"
   ],
   "note": ""
  },
  {
   "property": "C33",
   "status": "proved",
   "theorems": [
    "C33_http_date",
    "C33_injective",
    "C33_early_years_refuted"
   ],
   "note": "Years below 1000 are outside of the property and refuted."
  },
  {
   "property": "C34",
   "status": "proved",
   "theorems": [
    "C34_mime_by_extension",
    "C34_no_extension"
   ],
   "note": ""
  },
  {
   "property": "C35",
   "status": "partial",
   "theorems": [
    "C35_in_order_partial",
    "C35_unique",
    "C35_last_accepts",
    "C35_later_never_see_it",
    "C35_deleted_sibling_refuted",
    "C35_function"
   ],
   "note": "Proved while no handler deletes a sibling that comes after it; C35_deleted_sibling_refuted: the stack then calls a deleted object."
  },
  {
   "property": "C36",
   "status": "proved",
   "theorems": [
    "C36_first_match",
    "C36_no_match",
    "C36_method",
    "C36_method_param",
    "C36_method_total",
    "C36_decoded",
    "C36_encoding_irrelevant",
    "C36_bad_escape_refuted",
    "C36_does"
   ],
   "note": "For route patterns of plain characters, :name and *name (other regular expressions are outside of the model); methods are compared without case."
  },
  {
   "property": "C37",
   "status": "partial",
   "theorems": [
    "C37_patterns",
    "C37_literal",
    "C37_param",
    "C37_splat",
    "C37_dot_refuted",
    "C37_segment_refuted",
    "C37_star_refuted",
    "C37_regex"
   ],
   "note": "Patterns denote exactly what RouterSpec says; the English claim is refuted for '.', for segments with other characters than letters, digits, _ and -, and for '*' without a name."
  },
  {
   "property": "C38",
   "status": "partial",
   "theorems": [
    "C38_captures_partial",
    "C38_values",
    "C38_swapped_refuted",
    "C38_regex_partial"
   ],
   "note": "Proved unless a *name precedes a :name, where the values are swapped (refuted)."
  },
  {
   "property": "C39",
   "status": "proved",
   "theorems": [
    "C39_unmatched",
    "C39_mismatch"
   ],
   "note": ""
  },
  {
   "property": "C40",
   "status": "partial",
   "theorems": [
    "C40_answered_partial",
    "C40_refused_untouched",
    "C40_deleted_refuted",
    "C40_unknown_slot_refuted"
   ],
   "note": "Proved while the targets exist; refuted for deleted handlers and unknown slots."
  },
  {
   "property": "C41",
   "status": "partial",
   "theorems": [
    "C41_containment_partial",
    "C41_nothing_public",
    "C41_sibling_refuted",
    "C41_race_refuted",
    "C41_decoded"
   ],
   "note": "The canonical path of every opened file begins with the text of the public path, so it is inside unless a sibling shares that prefix; C41_sibling_refuted: GET /../www-private/secret escapes from /srv/www; C41_race_refuted: check and open are not atomic."
  },
  {
   "property": "C42",
   "status": "partial",
   "theorems": [
    "C42_small_files_partial",
    "C42_revalidate",
    "C42_large_refuted",
    "C42_decoded"
   ],
   "note": "Proved for files that fit in the buffer; larger files never get an ETag (refuted)."
  },
  {
   "property": "C43",
   "status": "partial",
   "theorems": [
    "C43_transfer_partial",
    "C43_bounded",
    "C43_progress",
    "C43_buffer",
    "C43_completes",
    "C43_head_refuted"
   ],
   "note": "Proved for requests other than HEAD, files below 2 GiB and no other writer; C43_head_refuted: after a HEAD request the transfer writes into the next response; larger files: see C24_truncated_refuted."
  },
  {
   "property": "C44",
   "status": "partial",
   "theorems": [
    "C44_exclusive_partial",
    "C44_accounting_partial",
    "C44_no_dangling_partial",
    "C44_nested_close_refuted",
    "C44_accept_in_closed_refuted",
    "C44_close_in_completed_refuted"
   ],
   "note": "Proved for every history of accepts and connection events when sockets are accepted outside closed signals, no connection is closed inside another one's closed signal and the connections are used politely; each condition is shown necessary (_refuted): nested close destroys a running connection, accept inside closed loses the device, close() inside requestCompleted corrupts the pooled connection."
  },
  {
   "property": "C45",
   "status": "proved",
   "theorems": [
    "C45_parsed",
    "C45_accepted",
    "C45_end_to_end",
    "C45_case",
    "C45_no_path_refuted",
    "C45_own_length_refuted",
    "C45_split_refuted"
   ],
   "note": "Clean requests: token method, path starting with '/', no blanks or line ends in target, host and headers, no Content-Length, Transfer-Encoding or Expect header of the user's; the written bytes are one request of the server's grammar with exactly these parts, and a server connection that gets them reports it. The excluded cases are refuted (empty path, own Content-Length, line end in a header value)."
  },
  {
   "property": "C46",
   "status": "partial",
   "theorems": [
    "C46_same_for_every_split",
    "C46_content_after_error_refuted",
    "C46_headers_after_error_refuted",
    "C46_empty_refuted"
   ],
   "note": "Proved for all parser states, streams and cuts: same status, same error, and the same whole state when there is no error. Refuted part: after an error the content and headers() depend on the cuts (C46_content_after_error_refuted, C46_headers_after_error_refuted); what was reported differs only by content bytes at the end.  Refuted too: an inject() of no bytes between two pieces is taken for the end of the stream (C46_empty_refuted); the proved theorem feeds nothing for an empty piece, as HttpClient does."
  },
  {
   "property": "C47",
   "status": "partial",
   "theorems": [
    "C47_identity",
    "C47_no_body",
    "C47_until_close",
    "C47_upgrade_refuted"
   ],
   "note": "Content-Length, no-body and until-close responses, any cut, any prefix, after any number of complete responses; heads under 80 KB. Excluded and refuted: a response with an Upgrade header loses its body."
  },
  {
   "property": "C48",
   "status": "partial",
   "theorems": [
    "C48_chunked",
    "C48_trailers",
    "C48_several_codings_refuted"
   ],
   "note": "All chunk lists, extensions, trailers; any cut, any prefix. Refuted when chunked is the last of several transfer codings (the chunk framing is reported as content)."
  },
  {
   "property": "C49",
   "status": "partial",
   "theorems": [
    "C49_response",
    "C49_until_close",
    "C49_stream",
    "C49_writeResponse",
    "C49_upgrade_refuted",
    "C49_blank_refuted",
    "C49_proxy_refuted",
    "C49_unknown_status_refuted",
    "C49_head",
    "C49_head_served",
    "C49_head_method"
   ],
   "note": "Proved for every answer whose headers are clean (tokens, no line ends, no blanks at the ends, no Upgrade or Proxy-Connection header), standard status: one response, until-close responses, whole streams of keep-alive exchanges with interim responses, any segmentation; and the head alone in answer to a HEAD request (C49_head: reported once, no content, and client and server agree on keeping the connection; C49_head_served: the same from a reached server connection whose user code calls writeHeaders; C49_head_method: client and server take the same requests for HEAD requests). Refuted without those conditions (Upgrade, trailing blank in Transfer-Encoding, Proxy-Connection, unknown status)."
  },
  {
   "property": "C50",
   "status": "partial",
   "theorems": [
    "C50_stream_partial",
    "C50_cut_off_refuted",
    "C50_trailer_refuted",
    "C50_after_close"
   ],
   "note": "Proved for responses that follow complete ones (or a clear() after a complete one); after a response that closes the connection nothing more is reported and anything but line ends is an error (C50_after_close); refuted after a response that was cut off and after a response with trailers: leftover text is prefixed to the next response's first header."
  },
  {
   "property": "C51",
   "status": "partial",
   "theorems": [
    "C51_content_length_refuted",
    "C51_chunk_size_refuted",
    "C51_blank_refuted",
    "C51_content_length_partial",
    "C51_chunk_size_partial",
    "C51_first_missed_refuted",
    "C51_first_missed_chunk_refuted"
   ],
   "note": "Proved: decimal lengths from 2^64-1 to 20496382304121724016 and chunk sizes from 2^64-1 to 19676527011956855056 are refused, in any header line or chunk and for any cut. Refuted above those bounds: the overflow test misses most larger values, the first missed ones being the next integers (C51_first_missed_*); blanks inside a length are skipped."
  },
  {
   "property": "C52",
   "status": "partial",
   "theorems": [
    "C52_one_finished",
    "C52_dialog",
    "C52_abort",
    "C52_error",
    "C52_connection_failed",
    "C52_quiet",
    "C52_head_abort_refuted",
    "C52_nested_error_refuted",
    "C52_kept_replaced_refuted",
    "C52_kept_abort_refuted",
    "C52_never_finished_refuted"
   ],
   "note": "Proved for histories in which no socket event is delivered inside the slots of headersCompleted/contentReadyRead and HEAD requests are not aborted inside headersCompleted; outside of these finished() is emitted twice, a kept request can be replaced, and a request made while the socket closes never ends (all refuted)."
  },
  {
   "property": "C53",
   "status": "partial",
   "theorems": [
    "C53_response",
    "C53_request",
    "C53_connected",
    "C53_reused",
    "C53_rest",
    "C53_kept",
    "C53_new",
    "C53_two_interims_refuted",
    "C53_other_interim_refuted",
    "C53_interim_content_refuted",
    "C53_until_close_refuted",
    "C53_after_abort_refuted",
    "C53_stale_decoder_refuted",
    "C53_stale_bytes_refuted",
    "C53_invalid",
    "C53_head",
    "C53_head_rest",
    "C53_colonless_refuted"
   ],
   "note": "Proved for one interim response without content before any complete response (length, chunked or bodyless), all segmentations, any consumeContent()/request() calls in between, with or without gunzip; where such a client comes from (new, reused connection) is proved too.  Missing because false of the code: two interim responses in one segment, other 1xx codes, interim content, responses ended by the connection, clients whose previous request was aborted in mid response (C53_*_refuted).  C53_invalid: bytes the parser refuses end the request with ResponseInvalidError, and only so.  HEAD requests: C53_head (the head alone is the response, whatever it announces) and C53_head_rest (the client is then at rest and can reuse the connection, which is kept if the head says how long the body would be).  C53_colonless_refuted: a header line without a colon spoils the next response."
  },
  {
   "property": "C54",
   "status": "partial",
   "theorems": [
    "C54_served",
    "C54_shared_refuted"
   ],
   "note": "Proved for calm histories (NamSpec.v); C54_shared_refuted: aborting the reply to a HEAD request from a slot of metaDataChanged() puts its client into the pool twice."
  },
  {
   "property": "C55",
   "status": "partial",
   "theorems": [
    "C55_relay",
    "C55_content",
    "C55_overshoot_refuted",
    "C55_error_status_refuted"
   ],
   "note": "C55_relay: for every upstream behaviour the client gets the upstream head once, then the pieces of content that are not empty and do not exceed the announced length, in order, or a 503, and once the request is over the pipe does nothing any more; C55_content: everything is relayed while the length is respected. Counterexamples: C55_overshoot_refuted (an excess piece is dropped and later pieces still sent), C55_error_status_refuted (an upstream error status without content becomes 503)."
  },
  {
   "property": "C56",
   "status": "partial",
   "theorems": [
    "C56_success_partial",
    "C56_chunked_refuted",
    "C56_late_error_refuted",
    "C56_destroyed_refuted"
   ],
   "note": "C56_success_partial: what a successful upstream end does, for each framing. Counterexamples: C56_chunked_refuted (no terminating chunk), C56_late_error_refuted (a failure after the head never closes the connection), C56_destroyed_refuted."
  },
  {
   "property": "C57",
   "status": "partial",
   "theorems": [
    "C57_append",
    "C57_self_append_refuted"
   ],
   "note": "Holds for distinct collections; refuted for a collection appended to itself (writes past the end of the vector)."
  },
  {
   "property": "C58",
   "status": "proved",
   "theorems": [
    "C58_log_lines",
    "C58_never_accepts"
   ],
   "note": ""
  },
  {
   "property": "C59",
   "status": "proved",
   "theorems": [
    "C59_fixed",
    "C59_not_found"
   ],
   "note": ""
  },
  {
   "property": "C60",
   "status": "proved",
   "theorems": [
    "C60_own_server",
    "C60_stream"
   ],
   "note": "For the histories of C52 (calm environments)."
  },
  {
   "property": "C61",
   "status": "partial",
   "theorems": [
    "C61_request",
    "C61_repeated_refuted",
    "C61_upload",
    "C61_late_refuted"
   ],
   "note": "C61_request, C61_upload for all requests and schedules of the upload. C61_repeated_refuted: repeated headers are not all kept, as the statement says. C61_late_refuted: bytes of the content that are read after the client's request is over (the server answered early) are not the request's."
  },
  {
   "property": "C62",
   "status": "proved",
   "theorems": [
    "C62_elastic",
    "C62_spawn"
   ],
   "note": ""
  },
  {
   "property": "C63",
   "status": "partial",
   "theorems": [
    "C63_identity",
    "C63_create",
    "C63_own_response",
    "C63_read",
    "C63_isolation",
    "C63_abort_finished",
    "C63_abort",
    "C63_unknown_refuted",
    "C63_abort_refuted",
    "C63_abort_kept_refuted"
   ],
   "note": "Proved for calm histories; refuted: aborting a reply from a slot of its own error() aborts the next reply on its client (C63_abort_refuted), aborting a reply whose request waits for the previous one to return has no effect (C63_abort_kept_refuted), the reply to an UnknownOperation never finishes (C63_unknown_refuted)."
  },
  {
   "property": "C64",
   "status": "partial",
   "theorems": [
    "C64_not_a_function",
    "C64_value",
    "C64_error_answered",
    "C64_error_too_late",
    "C64_thrown_refuted",
    "C64_misdirected_refuted"
   ],
   "note": "Proved for every script, where an error that ends it is an Error object and no later request was announced meanwhile. Refuted beyond that: a thrown value that is no Error object is never answered (C64_thrown_refuted); an error after the script completed its response answers the next pipelined request with 500 (C64_misdirected_refuted)."
  },
  {
   "property": "C65",
   "status": "partial",
   "theorems": [
    "C65_current",
    "C65_once",
    "C65_handles",
    "C65_deleted_refuted",
    "C65_same_time_refuted",
    "C65_race_refuted",
    "C65_renamed_refuted"
   ],
   "note": "C65_current (every request while the file is there, if each change gives it a later time and none happens during loading), C65_once, C65_handles. Refuted without these conditions: C65_deleted_refuted, C65_same_time_refuted, C65_race_refuted; a new file or function name has no effect once a script was loaded (C65_renamed_refuted)."
  },
  {
   "property": "C66",
   "status": "partial",
   "theorems": [
    "C66_decoded",
    "C66_headers",
    "C66_params",
    "C66_plain_partial",
    "C66_percent_refuted",
    "C66_repeated_refuted"
   ],
   "note": "C66_headers characterises the headers for all requests; C66_plain_partial: fields without '%' whose bytes decode to themselves, and no repeated header. Refuted otherwise: C66_percent_refuted (content and headers are percent-decoded), C66_repeated_refuted."
  },
  {
   "property": "C67",
   "status": "partial",
   "theorems": [
    "C67_follows",
    "C67_requested",
    "C67_not_while_pending",
    "C67_see_other_refuted",
    "C67_relative_refuted",
    "C67_which_refuted"
   ],
   "note": "Proved for calm histories: which request it makes (C67_follows, C67_requested), that nothing happens while one is under way. Refuted as a user would expect it: 303 repeats the method, the data and header fields meant for the first server (C67_see_other_refuted), a relative Location is not resolved (C67_relative_refuted), 308 is not followed and 300 without Location asks for an empty URL (C67_which_refuted)."
  },
  {
   "property": "C68",
   "status": "partial",
   "theorems": [
    "C68_bounded",
    "C68_waits",
    "C68_gzip_refuted",
    "C68_smaller_refuted"
   ],
   "note": "C68_bounded for all calm histories without gzipped responses, where no later limit is larger; C68_waits. Refuted beyond: decompressed content is not bounded (C68_gzip_refuted), a smaller limit does not drop what is held (C68_smaller_refuted)."
  },
  {
   "property": "C69",
   "status": "partial",
   "theorems": [
    "C69_decodes",
    "C69_so_far",
    "C69_passed_through",
    "C69_failing_piece",
    "C69_response",
    "C69_case",
    "C69_members_refuted",
    "C69_damaged_refuted",
    "C69_incomplete_refuted"
   ],
   "note": "C69_decodes, C69_so_far and C69_response for every zlib that meets the contract stated in PropsGunzip.v (Contract; C69_case has an instance). Refuted: only the first member of a file of several members is decompressed (C69_members_refuted), a damaged file gives a mixture of content and compressed bytes without an error (C69_damaged_refuted), an incomplete one gives no error (C69_incomplete_refuted)."
  },
  {
   "property": "C70",
   "status": "proved",
   "theorems": [
    "C70_head",
    "C70_endless_head",
    "C70_no_empty_line",
    "C70_always",
    "C70_client",
    "C70_case"
   ],
   "note": "The parser in every usable state, and HttpClient with any request method."
  },
  {
   "property": "C71",
   "status": "partial",
   "theorems": [
    "C71_response",
    "C71_head",
    "C71_echo",
    "C71_splitting_refuted"
   ],
   "note": "C71_response, C71_head: for every script, request and object of clean headers; C71_echo: plain headers, no name repeated. Refuted: header values are percent-decoded for scripts, so a client can put line breaks into them, and a script that gives such a value back sends header lines made by the client (C71_splitting_refuted)."
  },
  {
   "property": "C72",
   "status": "proved",
   "theorems": [
    "C72_pool",
    "C72_encrypted",
    "C72_only"
   ],
   "note": ""
  },
  {
   "property": "C73",
   "status": "partial",
   "theorems": [
    "C73_jar",
    "C73_history",
    "C73_request",
    "C73_served",
    "C73_scope_refuted",
    "C73_two_cookies_refuted",
    "C73_deleted_refuted"
   ],
   "note": "Proved: the request made (C73_request), the jar as the fold of the responses in order, each for its own server (C73_jar, C73_history), other schemes untouched, and that replies are served as in C54/C63. Not true of the code, proved as counterexamples: the scope of cookies (C73_scope_refuted: a cookie without a path is stored for the root of the server), one Cookie header only (C73_two_cookies_refuted), responses whose reply was deleted (C73_deleted_refuted)."
  },
  {
   "property": "C74",
   "status": "partial",
   "theorems": [
    "C74_ends",
    "C74_signals",
    "C74_working",
    "C74_target",
    "C74_getter_refuted",
    "C74_interim_refuted"
   ],
   "note": "Proved: the signals of a finished or working reply (C74_signals, C74_working), error() and finished() once, in order, with the right code, in all histories (C74_ends), the redirection target (C74_target). Not true of the code: the getter error() always says NoError (C74_getter_refuted); the content of an interim response is reported and read as content of the reply, before metaDataChanged() (C74_interim_refuted)."
  },
  {
   "property": "C75",
   "status": "partial",
   "theorems": [
    "C75_line",
    "C75_one_line",
    "C75_journal",
    "C75_utf8",
    "C75_file",
    "C75_readable",
    "C75_no_forging",
    "C75_request",
    "C75_escape_refuted",
    "C75_empty_query_refuted"
   ],
   "note": "Proved: what every device receives in all histories (C75_journal, C75_file, C75_utf8), one line per entry for every request (C75_one_line, C75_no_forging), the exact text of the line (C75_line, C75_request) and that it can be read back (C75_readable), unless a text holds a place marker numbered up to 8 or the query is empty. There the claim is false of the code: an escape such as %2F in the target is replaced by later columns (C75_escape_refuted); a target with an empty query loses its '?' (C75_empty_query_refuted)."
  },
  {
   "property": "C76",
   "status": "proved",
   "theorems": [
    "C76_getters",
    "C76_stable",
    "C76_closed",
    "C76_own_bytes",
    "C76_log_line",
    "C76_after_completed_refuted"
   ],
   "note": "Proved for all histories (C76_getters, C76_stable, C76_closed, C76_own_bytes), with C75's hypothesis about the log lines as a corollary (C76_log_line). After the slots of requestCompleted the views dangle: HttpHandlerLog::requestClosed reads released memory when a client that pipelined a byte hangs up (C76_after_completed_refuted); the property does not claim that moment."
  },
  {
   "property": "C77",
   "status": "proved",
   "theorems": [
    "C77_decoded",
    "C77_params",
    "C77_no_fault",
    "C77_late_params_refuted"
   ],
   "note": "Proved for all histories (C77_decoded, C77_params; C77_no_fault: the getters never read outside of the texts). The parameters are emptied after requestCompleted and by initialize() but not at requestReady: a call of requestParams() between two requests makes the next request show the parameters of the previous one (C77_late_params_refuted); C77_params therefore assumes that parameters are asked for while a request is answered (in_time)."
  },
  {
   "property": "C78",
   "status": "proved",
   "theorems": [
    "C78_says",
    "C78_code",
    "C78_length",
    "C78_stale_refuted",
    "C78_unknown_refuted"
   ],
   "note": "Proved for all histories (C78_says, C78_code, C78_length). Outside of those moments it is false: the code is not reset at requestReady, so HttpHandlerLog::requestClosed logs a request that was never answered with the code of the previous one (C78_stale_refuted); for a code HTTP/1.1 does not know the status line has no code (C78_unknown_refuted, cf. C23)."
  },
  {
   "property": "C79",
   "status": "proved",
   "theorems": [
    "C79_safe",
    "C79_head",
    "C79_error",
    "C79_huge_refuted",
    "C79_shared_refuted"
   ],
   "note": "C79_safe, C79_head, C79_error for all histories, with the memory of the buffer as bytes and Qt's realloc/detach/append as in Qt 4.8. At 2 GiB the int arithmetic of ByteArray::append(HttpHeader) overflows and memory is overwritten (C79_huge_refuted); the class overruns its block when shared (C79_shared_refuted), which HttpConnection never lets happen."
  },
  {
   "property": "C80",
   "status": "proved",
   "theorems": [
    "C80_getters",
    "C80_copy",
    "C80_detached",
    "C80_append",
    "C80_undetached_lost",
    "C80_destroyed",
    "C80_destroyed_refuted"
   ],
   "note": "C80_getters, C80_copy, C80_detached, C80_append for all histories and both branches of setFromRawData (Qt 4.8, Qt 5), with QByteArray's control blocks and their reference counts. C80_undetached_lost: a concrete copy lost after the request. C80_destroyed: with Qt 5 appending is safe also after the connection was destroyed; with Qt 4 it then writes into released memory (C80_destroyed_refuted; such a copy is outside of what the documentation allows)."
  },
  {
   "property": "C81",
   "status": "proved",
   "theorems": [
    "C81_requests",
    "C81_kept",
    "C81_client",
    "C81_own_length_refuted"
   ],
   "note": "C81_requests, C81_kept, C81_client (the pieces are those of the writer in the client model) for all histories. C81_own_length_refuted: a Content-Length header of the caller is sent besides the writer's own; nothing refuses it."
  },
  {
   "property": "C82",
   "status": "proved",
   "theorems": [
    "C82_account",
    "C82_idle",
    "C82_function",
    "C82_progress",
    "C82_progress_no_head"
   ],
   "note": "C82_account (every moment of every history), C82_idle and C82_function (waiting for input: the log is a function of handler and bytes), C82_progress (from every reachable state some number of slot returns, answers and one read lead to waiting or the end). The handler answers through writeResponse() without a Content-Length header of its own and, for progress, gives no content to HEAD requests (see C20 for what happens otherwise); C82_progress_no_head: or any content, if no HEAD request arrives."
  },
  {
   "property": "C83",
   "status": "proved",
   "theorems": [
    "C83_session",
    "C83_quiet",
    "C83_kept",
    "C83_open",
    "C83_case",
    "C83_progress",
    "C83_case_progress",
    "C83_case_head"
   ],
   "note": "C83_session (every moment), C83_quiet (all answered and reported when nothing is on its way), C83_kept, C83_open (every good request opens such a session), C83_progress (no moment is a dead end: slots, network, server and handler alone bring the session to where everything is answered and reported; needs an unlimited read buffer and a handler that answers HEAD without content). Requests are clean (C45) and do not say Connection: close; HEAD requests are allowed if the handler answers them without content (C83_case_head; the server would send the content: C20); answers are clean (C49), not 100, without a Content-Length of their own, and do not close; while a request is under way the user neither aborts nor consumes content, and the socket reports no error; between requests the user calls request() once the slots have returned, on the connected socket and before the keep-alive timeout."
  },
  {
   "property": "C84",
   "status": "proved",
   "theorems": [
    "C84_returns",
    "C84_case"
   ],
   "note": "C84_returns; calm histories: while a request is under way the slots of headersCompleted() and contentReadyRead() run no nested event loop that delivers socket events, and a HEAD request is not aborted from headersCompleted() (same hypothesis as C50)."
  },
  {
   "property": "C85",
   "status": "proved",
   "theorems": [
    "C85_cause",
    "C85_history"
   ],
   "note": "C85_cause (one step), C85_history (whole histories)."
  },
  {
   "property": "C86",
   "status": "partial",
   "theorems": [
    "C86_sockets_partial",
    "C86_no_leak_partial",
    "C86_no_fault_partial",
    "C86_destroyed_partial",
    "C86_reports_partial",
    "C86_closed_at_end_refuted",
    "C86_accept_in_closed_refuted"
   ],
   "note": "C86_sockets_partial, C86_no_leak_partial, C86_no_fault_partial, C86_destroyed_partial and C86_reports_partial are proved for all histories under the conditions of C44 (sockets are accepted outside closed signals, no connection is closed inside the closed signal of another, polite use) and a server deleted outside slots. Refuted beyond: C86_accept_in_closed_refuted (a socket is leaked and never read), C86_closed_at_end_refuted (of the connections still served when the server is deleted only those younger than their socket report closed)."
  },
  {
   "property": "C87",
   "status": "proved",
   "theorems": [
    "C87_calls",
    "C87_idle",
    "C87_account",
    "C87_client",
    "C87_client_quiet",
    "C87_progress",
    "C87_progress_no_head",
    "C87_case",
    "C87_case_client",
    "C87_head_refuted"
   ],
   "note": "C87_calls (one call per request), C87_idle and C87_account (the wire), C87_progress (nothing waits for ever), C87_client and C87_client_quiet (HttpClient on the other end, under mild answers). User handlers answer with one writeResponse each, and routes whose target is gone are excluded (C40). C87_head_refuted: the content of the 404 response to a HEAD request can make the server read released storage; C87_progress excludes it, C87_progress_no_head excludes HEAD requests. Captured values: patterns with parameters before splats (C38)."
  },
  {
   "property": "C88",
   "status": "proved",
   "theorems": [
    "C88_calls",
    "C88_idle",
    "C88_progress",
    "C88_download",
    "C88_case",
    "C88_case_client"
   ],
   "note": "C88_calls (one call per request), C88_idle (the wire), C88_progress (nothing waits for ever, if no HEAD request arrives; see C87_head_refuted), C88_download (HttpClient on the other end). Files that fit into the buffer of the file handler; bigger ones are transferred in pieces (C43). What the checks of the path admit is C41: a sibling directory whose name begins with that of the public one passes. MD5 and QString conversions are parameters (sums are clean header values, texts stay below 2^31 bytes)."
  },
  {
   "property": "C89",
   "status": "proved",
   "theorems": [
    "C89_after",
    "C89_after_head",
    "C89_reuse",
    "C89_redirection",
    "C89_consume_refuted"
   ],
   "note": "C89_after and C89_after_head (what becomes of the connection), C89_reuse (the next request), C89_redirection (one that follows a redirection). A finding: content consumed while more of it has come in costs the connection, because the timer of consumeContent() may fire after the response is complete (C89_consume_refuted). The expiry of the QElapsedTimer is an event of the environment (CaClock). While the old connection still sends (ClosingState), connectToHost of the model, like Qt's, does nothing: then nothing is written at all (C52_never_finished_refuted)."
  }
 ]
}