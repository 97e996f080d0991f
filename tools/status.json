{
 "C27": [
  "proved",
  "All of the statement; the malformed-escape behaviour is pinned by C27_total and shown by C27_malformed_refuted."
 ],
 "C29": [
  "proved",
  "INT_MIN is excluded by the property; C29_int_min_refuted shows it is undefined behaviour."
 ],
 "C31": [
  "proved",
  "C31_surrounding_blanks_refuted: trailing blanks are kept."
 ],
 "C33": [
  "proved",
  "Years below 1000 are outside of the property and refuted."
 ],
 "C57": [
  "partial",
  "Holds for distinct collections; refuted for a collection appended to itself (writes past the end of the vector)."
 ],
 "C10": [
  "partial",
  "Proved for every closed history and every continuation, up to accesses to released or shared memory; C10_refuted: after a request of more than 32768 bytes the recycled connection writes into Qt's shared null buffer."
 ],
 "C20": [
  "partial",
  "Proved for handlers that do not give content to HEAD or zero-length responses; otherwise the content leaks into the next response, or released memory is read (both refuted)."
 ],
 "C22": [
  "partial",
  "Proved except for close() called inside requestCompleted, which is refuted."
 ],
 "C23": [
  "partial",
  "Known codes proved; for codes without a message the status line has no code (refuted)."
 ],
 "C24": [
  "partial",
  "Proved for announced lengths that fit in an int; larger ones are truncated, and one value is undefined behaviour (both refuted)."
 ],
 "C04": [
  "partial",
  "Proved except for a target with an empty query (\"/a?\"), where the text is corrupted (refuted)."
 ],
 "C36": [
  "proved",
  "For route patterns of plain characters, :name and *name (other regular expressions are outside of the model); methods are compared without case."
 ],
 "C37": [
  "partial",
  "Patterns denote exactly what RouterSpec says; the English claim is refuted for '.', for segments with other characters than letters, digits, _ and -, and for '*' without a name."
 ],
 "C38": [
  "partial",
  "Proved unless a *name precedes a :name, where the values are swapped (refuted)."
 ],
 "C40": [
  "partial",
  "Proved while the targets exist; refuted for deleted handlers and unknown slots."
 ],
 "C35": [
  "partial",
  "Proved while no handler deletes a sibling that comes after it; C35_deleted_sibling_refuted: the stack then calls a deleted object."
 ],
 "C41": [
  "partial",
  "The canonical path of every opened file begins with the text of the public path, so it is inside unless a sibling shares that prefix; C41_sibling_refuted: GET /../www-private/secret escapes from /srv/www; C41_race_refuted: check and open are not atomic."
 ],
 "C42": [
  "partial",
  "Proved for files that fit in the buffer; larger files never get an ETag (refuted)."
 ],
 "C43": [
  "partial",
  "Proved for requests other than HEAD, files below 2 GiB and no other writer; C43_head_refuted: after a HEAD request the transfer writes into the next response; larger files: see C24_truncated_refuted."
 ],
 "C46": [
  "partial",
  "Proved for all parser states, streams and cuts: same status, same error, and the same whole state when there is no error. Refuted part: after an error the content and headers() depend on the cuts (C46_content_after_error_refuted, C46_headers_after_error_refuted); what was reported differs only by content bytes at the end.  Refuted too: an inject() of no bytes between two pieces is taken for the end of the stream (C46_empty_refuted); the proved theorem feeds nothing for an empty piece, as HttpClient does."
 ],
 "C47": [
  "partial",
  "Content-Length, no-body and until-close responses, any cut, any prefix, after any number of complete responses; heads under 80 KB. Excluded and refuted: a response with an Upgrade header loses its body."
 ],
 "C48": [
  "partial",
  "All chunk lists, extensions, trailers; any cut, any prefix. Refuted when chunked is the last of several transfer codings (the chunk framing is reported as content)."
 ],
 "C50": [
  "partial",
  "Proved for responses that follow complete ones (or a clear() after a complete one); after a response that closes the connection nothing more is reported and anything but line ends is an error (C50_after_close); refuted after a response that was cut off and after a response with trailers: leftover text is prefixed to the next response's first header."
 ],
 "C51": [
  "partial",
  "Proved: decimal lengths from 2^64-1 to 20496382304121724016 and chunk sizes from 2^64-1 to 19676527011956855056 are refused, in any header line or chunk and for any cut. Refuted above those bounds: the overflow test misses most larger values, the first missed ones being the next integers (C51_first_missed_*); blanks inside a length are skipped."
 ],
 "C49": [
  "partial",
  "Proved for every answer whose headers are clean (tokens, no line ends, no blanks at the ends, no Upgrade or Proxy-Connection header), standard status: one response, until-close responses, whole streams of keep-alive exchanges with interim responses, any segmentation; and the head alone in answer to a HEAD request (C49_head: reported once, no content, and client and server agree on keeping the connection; C49_head_served: the same from a reached server connection whose user code calls writeHeaders; C49_head_method: client and server take the same requests for HEAD requests). Refuted without those conditions (Upgrade, trailing blank in Transfer-Encoding, Proxy-Connection, unknown status)."
 ],
 "C44": [
  "partial",
  "Proved for every history of accepts and connection events when sockets are accepted outside closed signals, no connection is closed inside another one's closed signal and the connections are used politely; each condition is shown necessary (_refuted): nested close destroys a running connection, accept inside closed loses the device, close() inside requestCompleted corrupts the pooled connection."
 ],
 "C52": [
  "partial",
  "Proved for histories in which no socket event is delivered inside the slots of headersCompleted/contentReadyRead and HEAD requests are not aborted inside headersCompleted; outside of these finished() is emitted twice, a kept request can be replaced, and a request made while the socket closes never ends (all refuted)."
 ],
 "C53": [
  "partial",
  "Proved for one interim response without content before any complete response (length, chunked or bodyless), all segmentations, any consumeContent()/request() calls in between, with or without gunzip; where such a client comes from (new, reused connection) is proved too.  Missing because false of the code: two interim responses in one segment, other 1xx codes, interim content, responses ended by the connection, clients whose previous request was aborted in mid response (C53_*_refuted).  C53_invalid: bytes the parser refuses end the request with ResponseInvalidError, and only so.  HEAD requests: C53_head (the head alone is the response, whatever it announces) and C53_head_rest (the client is then at rest and can reuse the connection, which is kept if the head says how long the body would be).  C53_colonless_refuted: a header line without a colon spoils the next response."
 ],
 "C45": [
  "proved",
  "Clean requests: token method, path starting with '/', no blanks or line ends in target, host and headers, no Content-Length, Transfer-Encoding or Expect header of the user's; the written bytes are one request of the server's grammar with exactly these parts, and a server connection that gets them reports it. The excluded cases are refuted (empty path, own Content-Length, line end in a header value)."
 ],
 "C60": [
  "proved",
  "For the histories of C52 (calm environments)."
 ],
 "C55": [
  "partial",
  "C55_relay: for every upstream behaviour the client gets the upstream head once, then the pieces of content that are not empty and do not exceed the announced length, in order, or a 503, and once the request is over the pipe does nothing any more; C55_content: everything is relayed while the length is respected. Counterexamples: C55_overshoot_refuted (an excess piece is dropped and later pieces still sent), C55_error_status_refuted (an upstream error status without content becomes 503)."
 ],
 "C56": [
  "partial",
  "C56_success_partial: what a successful upstream end does, for each framing. Counterexamples: C56_chunked_refuted (no terminating chunk), C56_late_error_refuted (a failure after the head never closes the connection), C56_destroyed_refuted."
 ],
 "C61": [
  "partial",
  "C61_request, C61_upload for all requests and schedules of the upload. C61_repeated_refuted: repeated headers are not all kept, as the statement says. C61_late_refuted: bytes of the content that are read after the client's request is over (the server answered early) are not the request's."
 ],
 "C54": [
  "partial",
  "Proved for calm histories (NamSpec.v); C54_shared_refuted: aborting the reply to a HEAD request from a slot of metaDataChanged() puts its client into the pool twice."
 ],
 "C63": [
  "partial",
  "Proved for calm histories; refuted: aborting a reply from a slot of its own error() aborts the next reply on its client (C63_abort_refuted), aborting a reply whose request waits for the previous one to return has no effect (C63_abort_kept_refuted), the reply to an UnknownOperation never finishes (C63_unknown_refuted)."
 ],
 "C64": [
  "partial",
  "Proved for every script, where an error that ends it is an Error object and no later request was announced meanwhile. Refuted beyond that: a thrown value that is no Error object is never answered (C64_thrown_refuted); an error after the script completed its response answers the next pipelined request with 500 (C64_misdirected_refuted)."
 ],
 "C65": [
  "partial",
  "C65_current (every request while the file is there, if each change gives it a later time and none happens during loading), C65_once, C65_handles. Refuted without these conditions: C65_deleted_refuted, C65_same_time_refuted, C65_race_refuted; a new file or function name has no effect once a script was loaded (C65_renamed_refuted)."
 ],
 "C66": [
  "partial",
  "C66_headers characterises the headers for all requests; C66_plain_partial: fields without '%' whose bytes decode to themselves, and no repeated header. Refuted otherwise: C66_percent_refuted (content and headers are percent-decoded), C66_repeated_refuted."
 ],
 "C67": [
  "partial",
  "Proved for calm histories: which request it makes (C67_follows, C67_requested), that nothing happens while one is under way. Refuted as a user would expect it: 303 repeats the method, the data and header fields meant for the first server (C67_see_other_refuted), a relative Location is not resolved (C67_relative_refuted), 308 is not followed and 300 without Location asks for an empty URL (C67_which_refuted)."
 ],
 "C68": [
  "partial",
  "C68_bounded for all calm histories without gzipped responses, where no later limit is larger; C68_waits. Refuted beyond: decompressed content is not bounded (C68_gzip_refuted), a smaller limit does not drop what is held (C68_smaller_refuted)."
 ],
 "C69": [
  "partial",
  "C69_decodes, C69_so_far and C69_response for every zlib that meets the contract stated in PropsGunzip.v (Contract; C69_case has an instance). Refuted: only the first member of a file of several members is decompressed (C69_members_refuted), a damaged file gives a mixture of content and compressed bytes without an error (C69_damaged_refuted), an incomplete one gives no error (C69_incomplete_refuted)."
 ],
 "C70": [
  "proved",
  "The parser in every usable state, and HttpClient with any request method."
 ],
 "C71": [
  "partial",
  "C71_response, C71_head: for every script, request and object of clean headers; C71_echo: plain headers, no name repeated. Refuted: header values are percent-decoded for scripts, so a client can put line breaks into them, and a script that gives such a value back sends header lines made by the client (C71_splitting_refuted)."
 ],
 "C73": [
  "partial",
  "Proved: the request made (C73_request), the jar as the fold of the responses in order, each for its own server (C73_jar, C73_history), other schemes untouched, and that replies are served as in C54/C63. Not true of the code, proved as counterexamples: the scope of cookies (C73_scope_refuted: a cookie without a path is stored for the root of the server), one Cookie header only (C73_two_cookies_refuted), responses whose reply was deleted (C73_deleted_refuted)."
 ],
 "C74": [
  "partial",
  "Proved: the signals of a finished or working reply (C74_signals, C74_working), error() and finished() once, in order, with the right code, in all histories (C74_ends), the redirection target (C74_target). Not true of the code: the getter error() always says NoError (C74_getter_refuted); the content of an interim response is reported and read as content of the reply, before metaDataChanged() (C74_interim_refuted)."
 ],
 "C75": [
  "partial",
  "Proved: what every device receives in all histories (C75_journal, C75_file, C75_utf8), one line per entry for every request (C75_one_line, C75_no_forging), the exact text of the line (C75_line, C75_request) and that it can be read back (C75_readable), unless a text holds a place marker numbered up to 8 or the query is empty. There the claim is false of the code: an escape such as %2F in the target is replaced by later columns (C75_escape_refuted); a target with an empty query loses its '?' (C75_empty_query_refuted)."
 ],
 "C76": [
  "proved",
  "Proved for all histories (C76_getters, C76_stable, C76_closed, C76_own_bytes), with C75's hypothesis about the log lines as a corollary (C76_log_line). After the slots of requestCompleted the views dangle: HttpHandlerLog::requestClosed reads released memory when a client that pipelined a byte hangs up (C76_after_completed_refuted); the property does not claim that moment."
 ],
 "C77": [
  "proved",
  "Proved for all histories (C77_decoded, C77_params; C77_no_fault: the getters never read outside of the texts). The parameters are emptied after requestCompleted and by initialize() but not at requestReady: a call of requestParams() between two requests makes the next request show the parameters of the previous one (C77_late_params_refuted); C77_params therefore assumes that parameters are asked for while a request is answered (in_time)."
 ],
 "C78": [
  "proved",
  "Proved for all histories (C78_says, C78_code, C78_length). Outside of those moments it is false: the code is not reset at requestReady, so HttpHandlerLog::requestClosed logs a request that was never answered with the code of the previous one (C78_stale_refuted); for a code HTTP/1.1 does not know the status line has no code (C78_unknown_refuted, cf. C23)."
 ],
 "C79": [
  "proved",
  "C79_safe, C79_head, C79_error for all histories, with the memory of the buffer as bytes and Qt's realloc/detach/append as in Qt 4.8. At 2 GiB the int arithmetic of ByteArray::append(HttpHeader) overflows and memory is overwritten (C79_huge_refuted); the class overruns its block when shared (C79_shared_refuted), which HttpConnection never lets happen."
 ],
 "C80": [
  "proved",
  "C80_getters, C80_copy, C80_detached, C80_append for all histories and both branches of setFromRawData (Qt 4.8, Qt 5), with QByteArray's control blocks and their reference counts. C80_undetached_lost: a concrete copy lost after the request. C80_destroyed: with Qt 5 appending is safe also after the connection was destroyed; with Qt 4 it then writes into released memory (C80_destroyed_refuted; such a copy is outside of what the documentation allows)."
 ],
 "C81": [
  "proved",
  "C81_requests, C81_kept, C81_client (the pieces are those of the writer in the client model) for all histories. C81_own_length_refuted: a Content-Length header of the caller is sent besides the writer's own; nothing refuses it."
 ],
 "C82": [
  "proved",
  "C82_account (every moment of every history), C82_idle and C82_function (waiting for input: the log is a function of handler and bytes), C82_progress (from every reachable state some number of slot returns, answers and one read lead to waiting or the end). The handler answers through writeResponse() without a Content-Length header of its own and, for progress, gives no content to HEAD requests (see C20 for what happens otherwise); C82_progress_no_head: or any content, if no HEAD request arrives."
 ],
 "C83": [
  "proved",
  "C83_session (every moment), C83_quiet (all answered and reported when nothing is on its way), C83_kept, C83_open (every good request opens such a session), C83_progress (no moment is a dead end: slots, network, server and handler alone bring the session to where everything is answered and reported; needs an unlimited read buffer and a handler that answers HEAD without content). Requests are clean (C45) and do not say Connection: close; HEAD requests are allowed if the handler answers them without content (C83_case_head; the server would send the content: C20); answers are clean (C49), not 100, without a Content-Length of their own, and do not close; while a request is under way the user neither aborts nor consumes content, and the socket reports no error; between requests the user calls request() once the slots have returned, on the connected socket and before the keep-alive timeout."
 ],
 "C84": [
  "proved",
  "C84_returns; calm histories: while a request is under way the slots of headersCompleted() and contentReadyRead() run no nested event loop that delivers socket events, and a HEAD request is not aborted from headersCompleted() (same hypothesis as C50)."
 ],
 "C85": [
  "proved",
  "C85_cause (one step), C85_history (whole histories)."
 ],
 "C86": [
  "partial",
  "C86_sockets_partial, C86_no_leak_partial, C86_no_fault_partial, C86_destroyed_partial and C86_reports_partial are proved for all histories under the conditions of C44 (sockets are accepted outside closed signals, no connection is closed inside the closed signal of another, polite use) and a server deleted outside slots. Refuted beyond: C86_accept_in_closed_refuted (a socket is leaked and never read), C86_closed_at_end_refuted (of the connections still served when the server is deleted only those younger than their socket report closed)."
 ],
 "C87": [
  "proved",
  "C87_calls (one call per request), C87_idle and C87_account (the wire), C87_progress (nothing waits for ever), C87_client and C87_client_quiet (HttpClient on the other end, under mild answers). User handlers answer with one writeResponse each, and routes whose target is gone are excluded (C40). C87_head_refuted: the content of the 404 response to a HEAD request can make the server read released storage; C87_progress excludes it, C87_progress_no_head excludes HEAD requests. Captured values: patterns with parameters before splats (C38)."
 ],
 "C88": [
  "proved",
  "C88_calls (one call per request), C88_idle (the wire), C88_progress (nothing waits for ever, if no HEAD request arrives; see C87_head_refuted), C88_download (HttpClient on the other end). Files that fit into the buffer of the file handler; bigger ones are transferred in pieces (C43). What the checks of the path admit is C41: a sibling directory whose name begins with that of the public one passes. MD5 and QString conversions are parameters (sums are clean header values, texts stay below 2^31 bytes)."
 ],
 "C89": [
  "proved",
  "C89_after and C89_after_head (what becomes of the connection), C89_reuse (the next request), C89_redirection (one that follows a redirection). A finding: content consumed while more of it has come in costs the connection, because the timer of consumeContent() may fire after the response is complete (C89_consume_refuted). The expiry of the QElapsedTimer is an event of the environment (CaClock). While the old connection still sends (ClosingState), connectToHost of the model, like Qt's, does nothing: then nothing is written at all (C52_never_finished_refuted)."
 ]
}