{"id": "C01", "title": "Requests do not depend on how bytes are segmented; pipelined requests are delivered once, in order", "statement": "At any moment, the bytes received so far by a connection are exactly the concatenation of the wire images of the requests announced by requestReady so far, in announcement order, followed by the bytes not yet consumed. Hence the sequence of announced requests is a function of the received byte stream alone, not of the chunks in which it arrived, and no request byte is lost, duplicated or attributed to another request, including for pipelined requests processed while another request's completion signal is still being emitted.", "quantifier": "all byte streams, all ways of splitting them into reads, all handler behaviours (synchronous or delayed calls of the public API), all moments", "why_tests_cant": "A test feeds a few splits of a few streams; the claim is about every split point of every stream and every interleaving with handler calls.", "anchors": ["pillowcore/HttpConnection.cpp: processInput, transitionToCompleted", "pillowcore/parser/parser.c: thin_http_parser_execute"]}
{"id": "C02", "title": "The request head parser accepts exactly the documented request grammar", "statement": "A byte sequence is accepted as a complete request head if and only if it is: 1-20 method characters, a space, a request target (\"*\", or a path starting with '/' with optional '?query', or scheme ':' rest), optional '#fragment', a space, HTTP/digits.digits, CRLF, any number of header lines 'token: value CRLF', and a final CRLF. Any other byte sequence that is not a prefix of one is rejected at the first offending byte.", "quantifier": "all byte sequences over all 256 byte values", "why_tests_cant": "The accepted language is infinite and the parser is a generated 58-state automaton; a single wrong edge is only visible on inputs using that edge.", "anchors": ["pillowcore/parser/parser.c: thin_http_parser_execute", "pillowcore/parser/common.rl"]}
{"id": "C03", "title": "Extracted request fields are the grammar's fields", "statement": "When a head is accepted, requestMethod, requestPath, requestQueryString, requestFragment, requestHttpVersion and the ordered list of (field, value) headers equal the corresponding pieces of the request text: path and query are those of '/'-form targets (empty for '*' and absolute URIs), header values have leading spaces removed and nothing else changed, duplicates and order are kept.", "quantifier": "all well-formed request heads", "why_tests_cant": "Offsets are computed by actions on automaton edges; wrong offsets show up only for particular combinations of optional parts (empty query, fragment without query, empty values, ...).", "anchors": ["pillowcore/parser/parser.c: thin_http_parser_execute", "pillowcore/HttpConnection.cpp: setupRequestHeaders, transitionToSendingHeaders, parser_http_field"]}
{"id": "C04", "title": "requestUri() is the request target as sent", "statement": "For every accepted request, requestUri() equals the request target text as sent by the client, without the fragment.", "quantifier": "all well-formed request heads", "why_tests_cant": "requestUri shares storage with requestPath, which is NUL-terminated in place; only targets with an empty query show the aliasing.", "anchors": ["pillowcore/HttpConnection.cpp: transitionToSendingHeaders", "pillowcore/ByteArrayHelpers.h: setFromRawDataAndNullterm"]}
{"id": "C05", "title": "A malformed request head gets exactly one 400 and a closed connection, never a requestReady", "statement": "If the received bytes cannot be extended to a well-formed head, the connection writes exactly the bytes of one 'HTTP/1.0 400 Bad Request' response with Connection: close, announces no request for those bytes, processes no further input, and closes.", "quantifier": "all byte streams, all segmentations", "why_tests_cant": "The set of malformed heads is infinite, and error handling must also hold after previous good requests on the same connection.", "anchors": ["pillowcore/HttpConnection.cpp: processInput, writeRequestErrorResponse"]}
{"id": "C06", "title": "Request head size limit", "statement": "A head of at most 32767 bytes is never refused for its size; a connection that has buffered more than 32768 bytes of head, or completed a head of 32768 bytes or more, answers 400 and closes. The head buffered while waiting therefore never exceeds 32768 bytes plus nothing.", "quantifier": "all byte streams, all segmentations", "why_tests_cant": "Boundary depends on an off-by-one in the parser's byte count and must hold for every segmentation around the limit.", "anchors": ["pillowcore/HttpConnection.cpp: processInput", "pillowcore/HttpConnection.h: MaximumRequestHeaderLength", "pillowcore/parser/parser.c"]}
{"id": "C07", "title": "Request content length policy", "statement": "Given the last Content-Length header of an accepted head (case-insensitive name): if absent the content is empty; if it is not an integer or exceeds 134217728 the answer is 413 and close; if it is negative the answer is 400 and close; otherwise the announced requestContent has exactly that length.", "quantifier": "all well-formed heads, all Content-Length values including overflowing numbers, signs and blanks", "why_tests_cant": "Numeric boundaries, sign and overflow cases are unbounded.", "anchors": ["pillowcore/HttpConnection.cpp: transitionToReceivingContent"]}
{"id": "C08", "title": "Request content is exact", "statement": "requestContent() at requestReady consists of exactly the Content-Length bytes that followed the head on the wire (all byte values preserved), and the next request starts at the byte right after them.", "quantifier": "all requests, all contents, all segmentations", "why_tests_cant": "Content bytes may be anything, including bytes that look like another request, and may arrive split anywhere or together with later requests.", "anchors": ["pillowcore/HttpConnection.cpp: processInput, transitionToSendingHeaders, transitionToCompleted"]}
{"id": "C09", "title": "100-continue", "statement": "The interim response 'HTTP/1.1 100 Continue' is written exactly once for each accepted request that has a positive content length and an Expect header (first one, case-insensitively) equal to 100-continue, before requestReady; it is never written otherwise.", "quantifier": "all requests, all segmentations", "why_tests_cant": "Must hold for every history, including content already buffered and segmented heads.", "anchors": ["pillowcore/HttpConnection.cpp: transitionToReceivingContent"]}
{"id": "C10", "title": "A re-initialized connection is fresh", "statement": "After a connection was closed, initializing it again on new devices gives the same behaviour as a new connection: nothing of the bytes, headers, parameters or response state of previous requests (even aborted ones) influences what is announced or written.", "quantifier": "all previous histories that ended in Closed, all subsequent inputs", "why_tests_cant": "Connections are recycled by the server; leftover state depends on the whole previous history.", "anchors": ["pillowcore/HttpConnection.cpp: initialize, transitionToReceivingHeaders", "pillowcore/HttpServer.cpp: takeConnection, putConnection"]}
{"id": "C11", "title": "Response head format", "statement": "writeHeaders/writeResponse write, in one piece: the request's version, space, status code and message, CRLF; then every user header other than Content-Length, Content-Type, Connection and Transfer-Encoding unchanged and in order as 'field: value CRLF'; then Content-Length if known; Content-Type (user's, or text/plain when the length is positive); Connection; Transfer-Encoding; then CRLF.", "quantifier": "all status codes in the table, all header collections, all requests", "why_tests_cant": "Header collections are unbounded, and the special headers may occur any number of times in any order and case.", "anchors": ["pillowcore/HttpConnection.cpp: writeHeaders"]}
{"id": "C12", "title": "Response head is well-formed and says what the connection will do", "statement": "For header fields without CR/LF, the written head parses as exactly one HTTP response head; it contains at most one Content-Length, and its Connection/version agree with whether the connection is kept open after the response.", "quantifier": "all requests, all header collections without line breaks", "why_tests_cant": "Unbounded header collections and combinations.", "anchors": ["pillowcore/HttpConnection.cpp: writeHeaders"]}
{"id": "C13", "title": "Fixed-length responses never exceed and, when completed, exactly meet the announced Content-Length", "statement": "After a response head with a known length L >= 0, the total content bytes written for that response never exceed L; the request completes exactly when L bytes were written (at once for L = 0); writes which would exceed L write nothing at all.", "quantifier": "all lengths, all sequences of writeContent/endContent calls and other API calls", "why_tests_cant": "Any sequence of calls of any length may be made.", "anchors": ["pillowcore/HttpConnection.cpp: writeContent, endContent, transitionToSendingContent"]}
{"id": "C14", "title": "Chunked responses are valid chunked encodings of the content written", "statement": "When chunked transfer encoding was accepted, the bytes written after the head are a valid chunked encoding whose decoded content is the concatenation of the contents given to writeContent; the terminating zero chunk is written exactly once, by endContent, after which the response is complete.", "quantifier": "all sequences of writeContent calls with contents of any size", "why_tests_cant": "Sizes are unbounded (hex size line) and the decoding must be unique.", "anchors": ["pillowcore/HttpConnection.cpp: writeContent, endContent", "pillowcore/ByteArrayHelpers.h: appendNumber"]}
{"id": "C15", "title": "HEAD responses have no content", "statement": "For a HEAD request the response consists of the head only, whatever content the handler passes to writeResponse or writeContent, and the request completes right after the head.", "quantifier": "all HEAD requests, all handler calls", "why_tests_cant": "Any content and any call sequence.", "anchors": ["pillowcore/HttpConnection.cpp: writeResponse, writeContent, transitionToSendingContent"]}
{"id": "C16", "title": "Keep-alive negotiation", "statement": "After a completed response the connection is kept open if and only if the client wants it (HTTP/1.1 without 'Connection: close', or another version with 'Connection: keep-alive'), the response is delimited (known length >= 0 or accepted chunked encoding) and the handler did not give 'Connection: close'. Otherwise it is closed after the response.", "quantifier": "all requests and responses", "why_tests_cant": "Product of many header/version/length cases with free-form values.", "anchors": ["pillowcore/HttpConnection.cpp: writeHeaders, transitionToSendingContent, transitionToCompleted"]}
{"id": "C17", "title": "API calls in the wrong state have no effect", "statement": "writeResponse/writeHeaders outside of SendingHeaders, writeContent/endContent outside of SendingContent, and processInput while a request is being answered write nothing, emit nothing and change nothing.", "quantifier": "all states, all arguments", "why_tests_cant": "Must hold in every state reachable by any history.", "anchors": ["pillowcore/HttpConnection.cpp: writeResponse, writeHeaders, writeContent, endContent, processInput"]}
{"id": "C18", "title": "Signals are emitted in protocol order, at most once per request", "statement": "On one connection life, requestReady and requestCompleted alternate, starting with requestReady; closed is emitted at most once and nothing is emitted or written after it, provided handlers do not call close() from inside the requestCompleted signal nor re-initialize from inside the closed signal.", "quantifier": "all input streams, all (well-behaved) handler behaviours, reentrant or delayed", "why_tests_cant": "All interleavings of input, handler calls and re-entrant signal handlers.", "anchors": ["pillowcore/HttpConnection.cpp: transitionToSendingHeaders, transitionToCompleted, transitionToClosed"]}
{"id": "C19", "title": "Responses are written in request order, never interleaved", "statement": "The bytes written to the output device are a concatenation, in request order, of one complete response per completed request (with an interim 100-continue before it if due), optionally followed by a partial response or an error response as the last thing written.", "quantifier": "all input streams and handler behaviours in which writeResponse is not given a contradictory Content-Length", "why_tests_cant": "Pipelining plus synchronous handlers make the completion of one response run the next request inside the previous call.", "anchors": ["pillowcore/HttpConnection.cpp: writeResponse, transitionToSendingContent, transitionToCompleted"]}
{"id": "C20", "title": "Content of a response never leaks into the next response", "statement": "The content argument of writeResponse is only ever written as part of the response to the request for which writeResponse was called.", "quantifier": "all requests, headers, contents, handlers", "why_tests_cant": "Shows only with a contradictory Content-Length header, pipelining and a synchronous handler together.", "anchors": ["pillowcore/HttpConnection.cpp: writeResponse, transitionToSendingContent"]}
{"id": "C21", "title": "Graceful close waits for the output to drain", "statement": "When a response ends without keep-alive or after an error response, the devices are closed only once the device reports that no bytes are waiting to be written; until then the connection stays in Flushing, and each bytesWritten notification retries.", "quantifier": "all device behaviours (any number of partial writes)", "why_tests_cant": "Depends on arbitrary device schedules.", "anchors": ["pillowcore/HttpConnection.cpp: transitionToFlushing, drain, transitionToClosed"]}
{"id": "C22", "title": "No null device is dereferenced", "statement": "No sequence of API calls, device notifications and re-entrant signal handlers makes the connection use a null device pointer.", "quantifier": "all histories of a connection initialized with non-null devices", "why_tests_cant": "All interleavings of close() with signals; only re-entrant close at one specific point fails.", "anchors": ["pillowcore/HttpConnection.cpp: transitionToCompleted, transitionToClosed, processInput"]}
{"id": "C23", "title": "The status line carries the status code asked for", "statement": "writeHeaders(code, ...) writes a status line with that code and its standard message; for an unknown code it writes a well-formed 500 status line.", "quantifier": "all int status codes", "why_tests_cant": "All 2^32 codes, of which the unknown ones matter.", "anchors": ["pillowcore/HttpConnection.cpp: writeHeaders", "pillowcore/HttpHelpers.cpp: getStatusCodeAndMessage"]}
{"id": "C24", "title": "The Content-Length header carries the response length", "statement": "Whenever writeHeaders announces a known length L, the Content-Length header it writes is the decimal representation of L.", "quantifier": "all qint64 lengths", "why_tests_cant": "Only lengths of 2^31 and more fail.", "anchors": ["pillowcore/HttpConnection.cpp: writeHeaders", "pillowcore/ByteArrayHelpers.h: appendNumber"]}
{"id": "C25", "title": "Query parameters parsing", "statement": "requestParams() is the list, in order, of the percent-decoded (key, value) pairs of the query string split on '&' (a '&' at the very end does not start another piece) and on the first '=' of each piece; pieces without '=' get an empty value; an empty query gives no parameters; asking again gives the same list.", "quantifier": "all query strings", "why_tests_cant": "Unbounded strings with any placement of delimiters, including leading/trailing/double '&'.", "anchors": ["pillowcore/HttpConnection.cpp: requestParams"]}
{"id": "C26", "title": "Parameter lookup and update laws", "statement": "requestParamValue(name) is the value of the first parameter whose name matches case-insensitively, or empty; after setRequestParam(name, v), requestParamValue(name) is v, all other parameters are unchanged and in place, and at most one entry is added.", "quantifier": "all query strings, names, values, sequences of updates", "why_tests_cant": "Sequence and aliasing (case variants, duplicates) cases are unbounded.", "anchors": ["pillowcore/HttpConnection.cpp: requestParamValue, setRequestParam"]}
{"id": "C27", "title": "Percent decoding", "statement": "percentDecode never reads or writes outside of its input and never lengthens it; on text where every '%' starts an escape it replaces each '%hh' by the byte it encodes and leaves every other byte alone, in one left-to-right pass; decoding an encoded string yields the original for every byte string. (Malformed escapes are not left alone: '%zz' becomes a NUL byte.)", "quantifier": "all byte strings", "why_tests_cant": "Truncated and malformed escapes at every position.", "anchors": ["pillowcore/ByteArrayHelpers.h: percentDecodeInPlace, percentDecode, unhex"]}
{"id": "C28", "title": "ASCII case-insensitive comparison", "statement": "asciiEqualsCaseInsensitive(a, b) is true iff a and b have the same length and are equal after mapping A-Z to a-z byte-wise; the variant for lower-case tokens agrees with it when the second argument is lower case.", "quantifier": "all pairs of byte strings", "why_tests_cant": "All lengths (the implementation is word-at-a-time/unrolled) and all byte values.", "anchors": ["pillowcore/ByteArrayHelpers.h: asciiEqualsCaseInsensitive"]}
{"id": "C29", "title": "Number formatting", "statement": "appendNumber<int, base> appends the canonical base-10/16 representation of the number, for every int value but the most negative; the result reads back as the number.", "quantifier": "all int values", "why_tests_cant": "2^32 values.", "anchors": ["pillowcore/ByteArrayHelpers.h: appendNumber"]}
{"id": "C30", "title": "Header collection lookup", "statement": "getFieldValue(name) returns the value of the first header whose field equals name ASCII-case-insensitively, or an empty value; getFieldValues returns all of them in order; testFieldValue is true iff the header exists with a value equal case-insensitively.", "quantifier": "all header collections and names", "why_tests_cant": "Unbounded collections with duplicates and case variants.", "anchors": ["pillowcore/HttpHeader.cpp", "pillowcore/HttpHeader.h"]}
{"id": "C31", "title": "Raw header line parsing", "statement": "HttpHeader built from a raw 'field: value' text has the field before the first ':' and the value after it without its leading spaces (and nothing else removed); text without ':' is all field; building the raw text from a header with a clean field and value and parsing it gives the header back.", "quantifier": "all byte strings", "why_tests_cant": "Unbounded strings with any placement of ':' and blanks.", "anchors": ["pillowcore/HttpHeader.cpp"]}
{"id": "C32", "title": "Status table", "statement": "For each known code, the status text is the three-digit code, a space and the message; messages are non-empty; unknown codes have none.", "quantifier": "all ints", "why_tests_cant": "All ints; table holes.", "anchors": ["pillowcore/HttpHelpers.cpp: getStatusCodeAndMessage, getStatusMessage"]}
{"id": "C33", "title": "HTTP dates", "statement": "getHttpDate renders every valid date-time of the years 1000-9999 as 'Www, DD Mmm YYYY HH:MM:SS GMT' with English names; date-times that differ in a second or more give distinct texts.", "quantifier": "all valid date-times in years 1000-9999", "why_tests_cant": "All dates and times.", "anchors": ["pillowcore/HttpHelpers.cpp: getHttpDate"]}
{"id": "C34", "title": "Mime type lookup", "statement": "getMimeTypeForFilename depends only on the extension of the file name, and is application/octet-stream for unknown extensions.", "quantifier": "all file names", "why_tests_cant": "Unbounded names.", "anchors": ["pillowcore/HttpHelpers.cpp: getMimeTypeForFilename"]}
{"id": "C35", "title": "Handler stack tries handlers in order and stops at the first that accepts", "statement": "A handler stack offers the request to its child handlers in order until one accepts it; later handlers never see it; the stack accepts iff some child accepts.", "quantifier": "all lists of handlers and requests", "why_tests_cant": "All lists of handlers with arbitrary behaviours.", "anchors": ["pillowcore/HttpHandler.cpp: HttpHandlerStack::handleRequest"]}
{"id": "C36", "title": "Router picks the first matching route", "statement": "The simple router dispatches to the first added route whose path pattern matches the whole path and whose method (if any) equals the request method, and to no other route.", "quantifier": "all route tables, all requests", "why_tests_cant": "All tables and paths.", "anchors": ["pillowcore/HttpHandlerSimpleRouter.cpp: handleRequest, pathToRegExp"]}
{"id": "C37", "title": "Route patterns mean what they say", "statement": "A pattern without ':' and '*' matches exactly that path; ':name' matches exactly one non-empty path segment; '*' matches any remainder; the match is anchored at both ends.", "quantifier": "all patterns and paths", "why_tests_cant": "Patterns with regular expression metacharacters, all paths.", "anchors": ["pillowcore/HttpHandlerSimpleRouter.cpp: pathToRegExp"]}
{"id": "C38", "title": "Route parameters get their captured segments", "statement": "When a route with named parameters matches, each parameter is set on the request to the text captured at its own place in the pattern.", "quantifier": "all patterns and paths", "why_tests_cant": "Only some orders of ':' and '*' parameters fail.", "anchors": ["pillowcore/HttpHandlerSimpleRouter.cpp: pathToRegExp, handleRequest"]}
{"id": "C39", "title": "Unmatched and method-mismatch requests", "statement": "If no route matches the path, the configured unmatched action happens (404 or pass); if routes match the path but none the method, the configured mismatch action happens (405 with Allow listing exactly the methods of the path-matching routes, or pass).", "quantifier": "all tables and requests", "why_tests_cant": "All tables.", "anchors": ["pillowcore/HttpHandlerSimpleRouter.cpp: handleRequest"]}
{"id": "C40", "title": "Every request the router accepts is answered", "statement": "If the router accepts a request (returns true), some handler was invoked on it or a response was written.", "quantifier": "all tables, including routes whose target object was deleted", "why_tests_cant": "Depends on object lifetime histories.", "anchors": ["pillowcore/HttpHandlerSimpleRouter.cpp: handleRequest, invoke"]}
{"id": "C41", "title": "The file handler serves only files under its public path", "statement": "HttpHandlerFile never opens a file whose canonical path is outside of the canonical public directory.", "quantifier": "all request paths, all file systems (including symbolic links)", "why_tests_cant": "All paths with '..', encoded separators, sibling directories sharing a prefix.", "anchors": ["pillowcore/HttpHandler.cpp: HttpHandlerFile::handleRequest"]}
{"id": "C42", "title": "File ETag and conditional requests", "statement": "For an unchanged file, sending back the ETag of a previous answer in If-None-Match gives 304 without content; otherwise the whole file is sent with an ETag.", "quantifier": "all files and requests", "why_tests_cant": "All files and header values.", "anchors": ["pillowcore/HttpHandler.cpp: HttpHandlerFile::handleRequest"]}
{"id": "C43", "title": "File transfers send exactly the file", "statement": "The chunks written by a file transfer, over any schedule of bytesWritten notifications, concatenate to the file content, each chunk once and in order, and the response completes when the file is exhausted; the amount in flight stays bounded by the buffer size.", "quantifier": "all file contents, buffer sizes, notification schedules", "why_tests_cant": "All schedules.", "anchors": ["pillowcore/HttpHandler.cpp: HttpHandlerFileTransfer"]}
{"id": "C44", "title": "Server connection pool", "statement": "The server never hands out a connection object that is already serving a socket, keeps at most 25 idle connections, and a connection is either in use or idle, never both.", "quantifier": "all sequences of accepted sockets and closes", "why_tests_cant": "All histories.", "anchors": ["pillowcore/HttpServer.cpp: takeConnection, putConnection"]}
{"id": "C45", "title": "Client requests are parsed back by the server", "statement": "The bytes written by the client for a request with clean method, URL and headers are accepted by the request parser, and give the same method, target, headers and content.", "quantifier": "all clean requests", "why_tests_cant": "All combinations of method, target, headers and contents.", "anchors": ["pillowcore/HttpClient.cpp: HttpRequestWriter", "pillowcore/parser/parser.c"]}
{"id": "C46", "title": "Response parsing does not depend on segmentation", "statement": "The status, headers and total content reported by the response parser for a byte stream do not depend on how the stream is split across inject() calls.", "quantifier": "all byte streams, all splits", "why_tests_cant": "Every split point of every stream, with field/value callbacks cut anywhere.", "anchors": ["pillowcore/HttpClient.cpp: HttpResponseParser", "pillowcore/parser/http_parser.c: http_parser_execute"]}
{"id": "C47", "title": "Identity bodies are decoded exactly", "statement": "For a well-formed response head with Content-Length L followed by L bytes, the parser reports the status code, the headers in order, exactly those L bytes, and completes exactly at the last one.", "quantifier": "all well-formed heads and bodies", "why_tests_cant": "All heads and contents.", "anchors": ["pillowcore/parser/http_parser.c: http_parser_execute"]}
{"id": "C48", "title": "Chunked bodies are decoded exactly", "statement": "For a well-formed chunked response the parser reports exactly the concatenation of the chunk contents and completes exactly at the end of the terminating chunk.", "quantifier": "all chunk lists", "why_tests_cant": "All chunkings.", "anchors": ["pillowcore/parser/http_parser.c: http_parser_execute"]}
{"id": "C49", "title": "What the server writes is what the client reads", "statement": "The bytes written by the server for a keep-alive response (writeResponse, or writeHeaders with chunked encoding, writeContent*, endContent) are parsed by the client's response parser into the same status code, the same user headers, and exactly the content written.", "quantifier": "all responses with clean headers, all splits on the network", "why_tests_cant": "Composition of two unbounded formats.", "anchors": ["pillowcore/HttpConnection.cpp", "pillowcore/HttpClient.cpp: HttpResponseParser", "pillowcore/parser/http_parser.c"]}
{"id": "C50", "title": "Responses on a reused client connection are independent", "statement": "The headers reported for a response are only those of that response, whatever happened on previous responses of the same client (abort, remote close, trailers).", "quantifier": "all histories", "why_tests_cant": "Depends on the point at which the previous response stopped.", "anchors": ["pillowcore/HttpClient.cpp: HttpResponseParser::clear, messageBegin, headerField, headerValue"]}
{"id": "C51", "title": "Overflowing lengths are refused", "statement": "A response whose Content-Length or chunk size does not fit in 64 bits is reported as an error, never as a shorter length.", "quantifier": "all digit strings", "why_tests_cant": "Only particular overflowing values defeat the check.", "anchors": ["pillowcore/parser/http_parser.c: h_content_length, s_chunk_size"]}
{"id": "C52", "title": "One finished signal per request", "statement": "Each client request ends with exactly one finished signal, on completion, error, or abort.", "quantifier": "all histories of responses, network errors, and aborts, including from inside signals", "why_tests_cant": "All interleavings.", "anchors": ["pillowcore/HttpClient.cpp: HttpClient"]}
{"id": "C53", "title": "Interim 100-continue responses are invisible", "statement": "A 100-continue interim response preceding the final response is not reported, and the final response is reported as if it came alone.", "quantifier": "all responses, all segmentations", "why_tests_cant": "All segmentations.", "anchors": ["pillowcore/HttpClient.cpp: HttpClient::headersComplete, messageComplete"]}
{"id": "C54", "title": "Network access manager clients are not shared", "statement": "A pooled client serves at most one reply at a time and is only reused for the same host and port, after its previous reply finished.", "quantifier": "all histories of requests", "why_tests_cant": "All histories.", "anchors": ["pillowcore/HttpClient.cpp: NetworkAccessManager"]}
{"id": "C55", "title": "Proxy forwards one response", "statement": "The proxy pipe writes the upstream response head to the client at most once, then the upstream content in order; if the upstream fails before any header a 503 is written.", "quantifier": "all upstream behaviours", "why_tests_cant": "All upstream event sequences.", "anchors": ["pillowcore/HttpHandlerProxy.cpp: HttpHandlerProxyPipe"]}
{"id": "C56", "title": "Proxied responses are terminated properly", "statement": "When the upstream reply finishes successfully, the response to the client is complete according to its framing (length or terminating chunk); when it fails after the head was sent, the client connection is closed.", "quantifier": "all upstream behaviours", "why_tests_cant": "Only chunked upstreams and late failures show it.", "anchors": ["pillowcore/HttpHandlerProxy.cpp: HttpHandlerProxyPipe::pump, finished"]}
{"id": "C57", "title": "Appending header collections", "statement": "Appending a header collection to another one yields the concatenation of both, in order, with no header lost, also when a collection is appended to itself.", "quantifier": "all header collections, including a collection appended to itself", "why_tests_cant": "all collections and the aliasing case are an infinite family; the self-append case overruns memory silently", "anchors": ["pillowcore/HttpHeader.cpp: HttpHeaderCollection::operator+="]}
{"id": "C58", "title": "The log handler writes one line per completed request", "statement": "The log handler never accepts a request; each completed request of a connection offered to it gets exactly one line (plus, when tracing, one line when it begins and one when its connection closes), however many requests the connection serves, and nothing is logged for connections never offered or already destroyed.", "quantifier": "all histories of offered, completed, closed and destroyed connections, all modes", "why_tests_cant": "Depends on the whole history of signal connections and reused connection objects.", "anchors": ["pillowcore/HttpHandler.cpp: HttpHandlerLog"]}
{"id": "C59", "title": "Fixed and 404 handlers answer every request", "statement": "The fixed handler and the 404 handler accept every request, and the request is completely answered with the configured status and content (or 404 and a text naming the path) before they return.", "quantifier": "all connections with a pending request, all requests, statuses and contents", "why_tests_cant": "All connection states and requests.", "anchors": ["pillowcore/HttpHandler.cpp: HttpHandlerFixed, HttpHandler404"]}
{"id": "C60", "title": "A request is only sent to its own server", "statement": "Whatever the history of requests, redirections, aborts and connection errors, the bytes a client writes on a connection to a host and port are the texts of requests for that host and port, whole and in the order they were taken, each at most once.", "quantifier": "all histories of calls and socket events", "why_tests_cant": "Connection reuse depends on the whole history.", "anchors": ["pillowcore/HttpClient.cpp: HttpClient::request, sendRequest, device_connected"]}
{"id": "C61", "title": "The proxy forwards the request it received", "statement": "For every request, a configured proxy issues one upstream request with the same method, path, query, fragment and content, and with, for every header name of the request, exactly the last header of that name (an empty query or fragment is left as configured).", "quantifier": "all requests", "why_tests_cant": "All methods, targets, header lists and contents.", "anchors": ["pillowcore/HttpHandlerProxy.cpp: HttpHandlerProxy::handleRequest, createProxiedReply"]}
{"id": "C62", "title": "Proxied requests never queue behind six others", "statement": "Whatever the history of proxied requests and deleted replies, every request under way belongs to exactly one child network manager, no child manager has more than six of them, and a new manager is only created when all others are full.", "quantifier": "all histories of requests and deletions", "why_tests_cant": "Holds only if it holds after every interleaving of requests and completions.", "anchors": ["pillowcore/HttpHandlerProxy.cpp: ElasticNetworkAccessManager::createRequest"]}
{"id": "C63", "title": "A network reply shows its own response", "statement": "Whatever the interleaving of requests, socket events and aborts, a reply of the network access manager has the status, the headers and the content of the response to the request it was created for, finishes when that response does and with its error, and reading it yields the bytes of that content once and in order.", "quantifier": "all histories of requests, socket events, aborts and reads over any number of servers", "why_tests_cant": "Clients are reused between replies; every interleaving counts.", "anchors": ["pillowcore/HttpClient.cpp: NetworkReply, NetworkAccessManager::createRequest"]}
{"id": "C64", "title": "A script's result decides, and script errors become 500 answers", "statement": "A script handler that is no function declines every request and leaves it alone. A script that ends without an error decides with its result whether the request was handled, and nothing is added to the response it made. A script that ends with an error counts as having handled the request: if nothing of the response was sent the client gets a complete 500 response with the text of the error, otherwise nothing is added.", "quantifier": "all scripts (all sequences of actions on the connection and all endings), all requests and histories", "why_tests_cant": "All scripts and all points at which they can fail.", "anchors": ["pillowcore/HttpHandlerQtScript.cpp: HttpHandlerQtScript::handleRequest, objectToString"]}
{"id": "C65", "title": "A script file handler runs what is in the file", "statement": "With automatic reloading, each request is handled by the function that the script file defines at that time, or answered with 500 if the file cannot be read, evaluated or has no such function; without it, the first function found handles all later requests.", "quantifier": "all histories of file changes and requests", "why_tests_cant": "All histories of changes and requests.", "anchors": ["pillowcore/HttpHandlerQtScript.cpp: HttpHandlerQtScriptFile::handleRequest"]}
{"id": "C66", "title": "A script sees the request that was sent", "statement": "The object given to a script carries the request's method, uri, path, query, fragment, headers and content as they were sent.", "quantifier": "all requests", "why_tests_cant": "All requests, including every byte in their fields.", "anchors": ["pillowcore/HttpHandlerQtScript.cpp: toScriptValue, HttpHandlerQtScript::handleRequest"]}
{"id": "C67", "title": "followRedirection() asks for where the response points to", "statement": "When no request is under way and the latest finished() showed a redirection status, followRedirection() makes the request again for the URL in the response's Location field, as request() would; otherwise it does nothing.", "quantifier": "all calm histories of requests, responses, aborts and socket events, in any segmentation", "why_tests_cant": "The status and headers it acts on depend on the whole history.", "anchors": ["pillowcore/HttpClient.cpp: HttpClient::followRedirection, redirected, redirectionLocation"]}
{"id": "C68", "title": "The read buffer size bounds the content held", "statement": "With setReadBufferSize(n), n > 0, content() never holds more than n bytes at any time, and nothing is lost: the rest stays in the socket until content is consumed.", "quantifier": "all n, responses, segmentations and calm histories", "why_tests_cant": "All responses, sizes and ways to deliver them.", "anchors": ["pillowcore/HttpClient.cpp: HttpClient::setReadBufferSize, device_readyRead, consumeContent"]}
{"id": "C69", "title": "Decompression does not depend on how the content arrives", "statement": "If a response says Content-Encoding: gzip and its body is a gzip file, the content shown to the user (contentReadyRead(), content()) is the decompressed content of that file, byte for byte, however the body is cut into pieces and whatever its size; a damaged or incomplete file is reported.", "quantifier": "all contents, all cuts into pieces, all zlib implementations that meet the contract of inflate()", "why_tests_cant": "All contents and all cuts, in particular outputs larger than the 32 kB buffer with input left.", "anchors": ["pillowcore/HttpClient.cpp: GunzipContentTransformer::transform", "pillowcore/HttpClient.cpp: HttpResponseParser::messageContent"]}
{"id": "C70", "title": "A server cannot make a client wait for the headers for ever", "statement": "While the headers of a response are not complete the response parser takes at most 80 KB without an error, however they arrive; an HttpClient that gets more ends the request with ResponseInvalidError.", "quantifier": "all bytes, segmentations, parser states and calm client histories", "why_tests_cant": "All texts and segmentations, in every state of the parser.", "anchors": ["pillowcore/parser/http_parser.c: http_parser_execute (HTTP_MAX_HEADER_SIZE, nread)", "pillowcore/HttpClient.cpp: HttpClient::device_readyRead, HttpResponseParser::inject"]}
{"id": "C71", "title": "Headers given by a script reach the client as they are", "statement": "When a script answers a request with writeResponse(), writeResponseString() or writeHeaders(), the head sent has one line for each property of the object given, in its order, besides the lines the connection decides about itself; a script that gives the headers of a request back sends those headers, and nothing a client sends can add other lines.", "quantifier": "all scripts, requests, objects of headers and texts", "why_tests_cant": "All objects and all requests, in particular values with escapes.", "anchors": ["pillowcore/HttpHandlerQtScript.cpp: fromScriptValue, toScriptValue", "pillowcore/HttpConnection.cpp: HttpConnection::writeResponseString, writeHeaders"]}
{"id": "C72", "title": "Connections of an HttpsServer are encrypted", "statement": "Every connection an HttpsServer hands out works on a socket on which encryption was started as a server, with the private key and the certificate set last when the peer connected; a peer whose socket cannot be opened gets no connection; apart from that the connections are pooled as those of an HttpServer.", "quantifier": "all histories of setCertificate(), setPrivateKey(), connecting peers and connection events", "why_tests_cant": "All orders of configuration changes and peers.", "anchors": ["pillowcore/HttpsServer.cpp: HttpsServer::incomingConnection, setCertificate, setPrivateKey", "pillowcore/HttpServer.cpp: HttpServerPrivate"]}
{"id": "C73", "title": "Requests and cookies of a NetworkAccessManager", "statement": "For an http URL, createRequest() makes exactly one reply, whose request has the method of the operation (the custom verb for custom operations), the URL, the raw headers of the request in their order followed by one Cookie header with the cookies the jar holds for that URL (none if there are none), and the outgoing data for PUT, POST and custom operations only; other schemes are left to Qt and no pillow client sends anything for them. The cookies of every response are given to the jar once, when the headers of the response arrive, for the server the request of that same response was made to; nothing else changes the jar; a cookie is only sent where its scope allows.", "quantifier": "all calm histories of requests, responses, aborts, reads and deletions of replies, all cookie jars, all operations, URLs, headers and contents", "why_tests_cant": "Interleavings of several requests and responses, and any jar implementation.", "anchors": ["pillowcore/HttpClient.cpp: NetworkAccessManager::createRequest, NetworkReply::client_headersCompleted"]}
{"id": "C74", "title": "Signals, errors and redirection target of a network reply", "statement": "A reply of the NetworkAccessManager emits, for the response to its own request and no other, metaDataChanged() for its headers, then readyRead() for each piece of content, then error() if and only if it failed, with the code of the failure, then finished(); error() and finished() at most once; error() returns the same code; its redirection target is the last Location header of that response.", "quantifier": "all calm histories of a NetworkAccessManager (for error() and finished(): all histories)", "why_tests_cant": "All interleavings of replies that share pooled clients, aborts and failures at any point.", "anchors": ["pillowcore/HttpClient.cpp: NetworkReply::client_headersCompleted, client_contentReadyRead, client_finished, NetworkAccessManager::client_finished"]}
{"id": "C75", "title": "The text of the log lines", "statement": "Each entry of the log handler is one line, ended by a line feed, on the device in force: remote address, date, the quoted method, target and version of the request as received, then status, content length and elapsed seconds with three decimals (with [BEGIN], [ END ] and [CLOSE] in front when tracing; without a device, the entry goes to qDebug()). Whatever a client sends, its request cannot make a second line, and the line can be read back to the request and the answer.", "quantifier": "all requests and responses, all modes, all histories of requests and of setDevice and setMode", "why_tests_cant": "The line is made by nested substitutions into a template: it depends on every text a client can send.", "anchors": ["pillowcore/HttpHandler.cpp: HttpHandlerLog::handleRequest, requestCompleted, requestClosed, log, setDevice"]}
{"id": "C76", "title": "The request getters stay valid while a request is answered", "statement": "From requestReady until the slots of requestCompleted have returned, requestMethod(), requestUri(), requestPath(), requestQueryString(), requestFragment(), requestHttpVersion(), requestHeaders() and requestContent() give the request that was announced, byte for byte, although they are not copies but pointers into the receive buffer, and although further bytes arrive on the connection meanwhile. When the connection is closed in the middle of an answer they stay valid until initialize().", "quantifier": "all byte streams and segmentations, all handler behaviours, all moments between requestReady and the end of the requestCompleted slots", "why_tests_cant": "Whether a view dangles depends on when the buffer is reallocated, shifted or reused, hence on the sizes and arrival times of everything received before and meanwhile.", "anchors": ["pillowcore/HttpConnection.cpp: transitionToSendingHeaders, setupRequestHeaders, processInput, transitionToCompleted, initialize", "pillowcore/ByteArrayHelpers.h: setFromRawData, setFromRawDataAndNullterm", "pillowcore/HttpHandler.cpp: HttpHandlerLog::requestClosed"]}
{"id": "C77", "title": "Decoded texts and parameters belong to the request being answered", "statement": "While a request is answered, requestUriDecoded(), requestPathDecoded(), requestQueryStringDecoded() and requestFragmentDecoded() give the percent-decoding of that request's own texts, and requestParams() and requestParamValue() give the parameters of its own query string as changed by the setRequestParam() calls made since requestReady, in order, whatever was asked, cached or set for earlier requests on the same connection or on the device it used before.", "quantifier": "all byte streams and segmentations, all handler behaviours, all interleavings of getters, setRequestParam() and API calls, all requests of all devices of a recycled connection object", "why_tests_cant": "The values are computed on demand and cached in the connection object, which is recycled for request after request and device after device: a stale value shows only after a particular history of calls and arrivals.", "anchors": ["pillowcore/HttpConnection.cpp: requestParams, requestParamValue, setRequestParam, PERCENT_DECODABLE, transitionToSendingHeaders, transitionToCompleted, initialize"]}
{"id": "C78", "title": "responseStatusCode() and responseContentLength() tell what the client was told", "statement": "From the moment the head of a response has been written until the slots of requestCompleted have returned, responseStatusCode() is the code with which the head of the current request's response was made, which is the code in its status line if it is one of HTTP/1.1's, and responseContentLength() is the length announced in its Content-Length line, or -1 if it announces none.", "quantifier": "all byte streams and segmentations, all handler behaviours, all codes, headers and contents, all moments between the head and the end of the requestCompleted slots", "why_tests_cant": "The two values are fields of a recycled object, written in several places (requestReady, writeResponse, header scanning); handlers that log or account read them after arbitrary histories.", "anchors": ["pillowcore/HttpConnection.cpp: writeHeaders, writeResponse, transitionToSendingHeaders, responseStatusCode, responseContentLength", "pillowcore/HttpHandler.cpp: HttpHandlerLog::requestCompleted, HttpHandlerLog::requestClosed"]}
{"id": "C79", "title": "Response heads are built inside of their buffer", "statement": "Whatever status, headers and content handlers give and whatever heads were sent before on the same connection object, building the head of a response (and the error response to an unreadable request) never writes outside of its buffer, hands the device exactly the bytes of the head (those of C11), leaves nothing of it behind for the next response, and keeps at most 4096 bytes of memory between responses.", "quantifier": "all histories of a connection object through all its devices, all headers smaller together than 2 GiB, all capacities left by earlier heads, all contents of fresh memory and growth policies of the allocator", "why_tests_cant": "The buffer class writes through raw pointers after comparing sizes itself, with a fast path that depends on the capacity left by earlier responses; an overrun shows only for particular sequences of head sizes.", "anchors": ["pillowcore/private/ByteArray.h: append", "pillowcore/ByteArrayHelpers.h: appendNumber", "pillowcore/HttpConnection.cpp: writeHeaders, transitionToSendingContent, writeRequestErrorResponse"]}
{"id": "C80", "title": "Copies of the request fields", "statement": "Application code may keep copies of what the request getters return. As documented, while a request is being answered the getters and every copy taken of them since it was announced show the request's own bytes; a copy detached in that time keeps them for ever, whatever requests, devices and copies come later; appending to a copy at any time never writes into the connection's memory or beyond a block. (A copy that was not detached shows something else once the request is over.)", "quantifier": "all histories of a connection object with any number of requests, all moments at which copies are taken, detached, appended to or dropped, all contents of memory after a request is over", "why_tests_cant": "Whether a copy keeps its bytes depends on the reference counts of shared control blocks at the moment the connection reuses them for the next request, and so on the order of every copy taken and dropped before.", "anchors": ["pillowcore/ByteArrayHelpers.h: setFromRawData, setFromRawDataAndNullterm", "pillowcore/HttpConnection.h: requestMethod, requestContent, getters' documentation", "pillowcore/HttpConnection.cpp: setupRequestHeaders, transitionToSendingHeaders, transitionToCompleted"]}
{"id": "C81", "title": "A request writer writes exactly the requests asked of it", "statement": "Whatever get/head/post/put/deleteResource/write calls and device changes are made on one HttpRequestWriter, every device receives exactly the texts of the requests made while it was set, complete, in order, each with the length of its own content, and nothing left over from requests written before; calls without a device write nothing; the writer never writes outside of its buffer and keeps a bounded amount of memory between requests.", "quantifier": "all sequences of calls and device changes, all methods, paths, headers and contents below 2 GiB, all contents of fresh memory and (monotone) growth policies", "why_tests_cant": "The buffer is reused by setting its size field behind QByteArray's back; whether something is left over or overwritten depends on the sizes of all requests written before.", "anchors": ["pillowcore/HttpClient.cpp: HttpRequestWriter::write, get, head, post, put, deleteResource, setDevice", "pillowcore/ByteArrayHelpers.h: appendNumber"]}
{"id": "C82", "title": "What a served connection says is a function of its handler and of the bytes received", "statement": "On a connection whose requests are answered by a handler through writeResponse(), what the connection announces and writes is exactly: for each complete request of the received stream, in order, its announcement and the handler's answer to it (status line, headers, length, content), until an answer that closes; then what the bytes after them deserve (100 Continue, the refusal, nothing). It does not depend on how the bytes were cut, on when the handler answered, on pipelining or on how much the kernel took; and nothing waits for ever: once slots return, the handler answers and readable bytes are read, the connection waits for more bytes or has closed or is flushing its last answer.", "quantifier": "all handlers (functions of all requests announced so far), all streams and cuts, all polite schedules of calls, returns, arrivals and socket writes", "why_tests_cant": "The claim is about all interleavings of arrivals, nested slots and late answers, over streams of any number of pipelined requests.", "anchors": ["pillowcore/HttpConnection.cpp: processInput, transitionToReceivingHeaders, transitionToReceivingContent, transitionToSendingHeaders, writeResponse, writeHeaders, transitionToCompleted, flush, drain"]}
{"id": "C83", "title": "HttpClient and HttpConnection together: every answer reaches the user who asked", "statement": "An HttpClient talks over one connection to an HttpConnection whose requests a handler answers through writeResponse(); the network delivers the bytes of both directions in any pieces, at any time, and both sides' slots run and return in any order. At every moment neither end has failed, the handler was asked only what the client asked, in order, and what the client reported since it connected is: for each request, in turn, headersCompleted() with the handler's status and headers, the handler's content in contentReadyRead() pieces, and finished() with NoError and the whole content (for the last request possibly only a beginning of this). When nothing is on its way and nothing is left to be read, every request was answered and reported. Between the requests the connection stays usable. No moment is a dead end: with an unlimited read buffer, the slots returning, the network delivering and the handler answering bring every session to where everything is answered and reported.", "quantifier": "all handlers with clean answers, all sequences of clean requests (HEAD requests among them if they are answered without content), all interleavings of both ends, all ways the network cuts the bytes", "why_tests_cant": "Needs both ends at once: all interleavings of two event loops and a network, and sessions of any length.", "anchors": ["pillowcore/HttpClient.cpp: HttpClient::request, sendRequest, device_readyRead, HttpResponseParser callbacks", "pillowcore/HttpConnection.cpp: processInput, writeResponse, transitionToCompleted"]}
{"id": "C84", "title": "HttpClient always returns to the event loop", "statement": "At every moment of every history of an HttpClient (whatever calls were made, whatever arrived, however it was cut), if from now on the user's running slots simply return, then after finitely many returns no slot is running and the client has given control back to the event loop: it does not emit signals for ever, neither for one answer nor for an endless row of pieces.", "quantifier": "all calm histories of an HttpClient (any calls, any bytes from the peer, any moment)", "why_tests_cant": "Termination from every reachable state, for answers of any length.", "anchors": ["pillowcore/HttpClient.cpp: HttpClient::device_readyRead, HttpResponseParser::inject"]}
{"id": "C85", "title": "Why a connection ends", "statement": "A connection that is not over ends (is drained and closed) only for one of three reasons: close() is called (by the user, or because the device closed or the peer disconnected); what was received is refused, and then the 400 or 413 refusal is the last thing written; or the slots of requestCompleted() have returned for an exchange that does not keep the connection alive. In particular: a keep-alive exchange, a slot that returns, new bytes, a flush, drain() or bytesWritten() never end it.", "quantifier": "all reachable states of a connection, all actions, all histories", "why_tests_cant": "A negative: no history closes the connection for another reason.", "anchors": ["pillowcore/HttpConnection.cpp: transitionToFlushing, transitionToClosed, transitionToCompleted, writeRequestErrorResponse, drain"]}
{"id": "C86", "title": "Sockets and connections of a server are destroyed exactly once, never while used", "statement": "Every accepted socket is given to exactly one connection, stays its device until that connection reports closed, is released exactly once then, and is destroyed exactly once by the next turn of the event loop; a socket whose descriptor is refused is destroyed at once. No socket is destroyed while a connection uses it. When the server is deleted, every socket and every connection object that ever existed has been destroyed exactly once. While the server is deleted, a connection still served reports closed exactly if it was created after its socket.", "quantifier": "all numbers of peers, all histories of accepts (successful or not), connection events, event loop turns, and any moment for the deletion of the server; HttpServer and HttpLocalServer", "why_tests_cant": "Leaks and double deletions depend on the order in which peers come and go and on pool overflow.", "anchors": ["pillowcore/HttpServer.cpp: HttpServerPrivate, ~HttpServer, incomingConnection, this_newConnection, connection_closed", "pillowcore/HttpConnection.cpp: initialize, transitionToClosed"]}
{"id": "C87", "title": "A routed server answers every request as its routes prescribe, on the wire", "statement": "A server whose requests go to a HttpHandlerStack of a HttpHandlerSimpleRouter and a HttpHandler404 writes exactly one response per complete request received, in order: that of the first route whose pattern matches the decoded path and whose method matches (the request's, or the _method parameter if enabled), with the values captured from the path; else 405 with Allow listing the methods of the routes that match the path, or 404, if the router is told to; else the 404 response naming the path. This holds for every segmentation of the stream; no complete request waits for ever; and HttpClient on the other end reports to each of its requests the response prescribed for it.", "quantifier": "all route tables (patterns, methods, targets), user handlers, router flags, numbers and contents of requests, segmentations and interleavings of both ends and the network", "why_tests_cant": "Routing, parsing, pipelining and response writing interact; tests check single requests against single routes.", "anchors": ["pillowcore/HttpHandlerSimpleRouter.cpp: HttpHandlerSimpleRouter::handleRequest", "pillowcore/HttpHandler.cpp: HttpHandlerStack::handleRequest, HttpHandler404::handleRequest", "pillowcore/HttpConnection.cpp: HttpConnection", "pillowcore/HttpClient.cpp: HttpClient"]}
{"id": "C88", "title": "A file server answers every request with the file named, its freshness, or the proper error, on the wire", "statement": "A server whose requests go to a HttpHandlerStack of a log, a handler of its own for one path, a HttpHandlerFile and a HttpHandler404 (examples/fileserver) writes exactly one response per complete request received, in order: 200 with the content of the file that the decoded path names under the public directory, its MIME type and its digest as ETag; 304 without content if If-None-Match is that digest; 403 if the file cannot be read; 404 naming the path if there is no such file or it lies outside; or the answer of its own handler. Files may change between requests: each answer has the content and digest at its time. This holds for every segmentation of the stream; no complete request waits for ever if none is a HEAD request; and HttpClient on the other end reports to each of its requests status, headers and content as prescribed.", "quantifier": "all file systems and their changes, digests, paths, request headers, numbers and contents of requests, segmentations and interleavings of both ends and the network", "why_tests_cant": "Path decoding, file checks, parsing, pipelining and response writing interact; tests fetch single files over one segmentation.", "anchors": ["examples/fileserver/fileserver.cpp: main, HttpHandlerStats::handleRequest", "pillowcore/HttpHandler.cpp: HttpHandlerStack::handleRequest, HttpHandlerFile::handleRequest, HttpHandler404::handleRequest, HttpHandlerLog::handleRequest", "pillowcore/HttpConnection.cpp: HttpConnection", "pillowcore/HttpClient.cpp: HttpClient"]}
{"id": "C89", "title": "HttpClient keeps, closes and reuses connections exactly as the response, the keep-alive time and the server prescribe", "statement": "When a response was received completely and the slots of finished() have returned, the client keeps the connection and starts its keep-alive time if the response leaves the connection open (HTTP version, Connection header, known length) and the keep-alive time is not 0; otherwise it closes it and reads nothing more from it. Some time later, with no other request in between, the next request, also one made by followRedirection(), is written at once, as one complete request text, on the kept connection if it goes to the same server, the connection was not lost (no abort, no error that closed it, no readyRead event, be it of unexpected data or of the timer that consumeContent() started earlier) and the keep-alive time is not over (a negative one never is); in every other case not a byte of it is written before a new connection to its own server is asked for.", "quantifier": "all responses, interim responses, HEAD requests, segmentations, user actions while the response comes in, settings of the keep-alive time, sequences of actions and events between two requests, and next requests", "why_tests_cant": "The decision depends on the whole response, on the settings at its end and on everything that happens between two requests; tests cover a few timings of one response.", "anchors": ["pillowcore/HttpClient.cpp: HttpClient::request, HttpClient::messageComplete, HttpClient::device_readyRead, HttpClient::setKeepAliveTimeout"]}
