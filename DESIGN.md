# A Rocq (Coq 8.16.1) model of pillow and what is proved about it

`rocq/theories` holds three kinds of files.  *Models* of the C++ code, definition by definition, each definition with a
comment giving the file and lines of /repo.  *Specifications*, which say what the English properties mean without using
the model (they borrow its record types: what a request, a header, an event is).  *Proofs*; the theorems named `Cnn_...`
are in the `Props*.v` files, each with a concrete case that meets its hypotheses (`..._case`, `..._example`).
`MANIFEST.json` maps properties to theorems (`tools/mkman.py` writes it).

A theorem `Cnn_..._refuted` is a machine-checked counterexample to (a part of) the English property: the code does not
have it.  A property with such a theorem is claimed as `partial`, and its positive theorems say under which conditions
it does hold, unless the English statement already excludes the case.

## 1. What is modelled

| /repo/pillowcore | model | specification | main proof files |
|---|---|---|---|
| `parser/parser.c` (Ragel request head parser, 58 states) | `ThinTable.v` (mechanical translation of the goto program, committed), `Thin.v` | `ReqGrammar.v` | `ThinClasses`, `ThinProofs`, `ThinFields`, `ThinTop`, `PropsParser` |
| `ByteArrayHelpers.h`, `private/ByteArray.h`, `HttpHelpers.cpp`, `HttpHeader.*` | `Bytes.v`, `ByteHelpers.v`, `Helpers.v` | `TextSpec.v` | `CIProofs`, `HelpersProofs`, `PropsText` |
| `HttpConnection.*`: request parameters | `Params.v` | `TextSpec.v` | `ParamsProofs`, `PropsText` |
| `HttpConnection.*`: everything else | `Conn.v` | `ConnSpec.v` | `Conn*.v`, `PropsConn.v` ... `PropsConn7.v` |
| `HttpHandlerSimpleRouter.*` | `Router.v` | `RouterSpec.v` | `RouterProofs`, `RouterRx`, `PropsRouter`, `PropsRouter2` |
| `HttpHandler.*` (stack, fixed, 404, function, log, file, file transfer) | `Handlers.v`, `LogText.v` | in `PropsHandlers.v`, `PropsTransfer.v`, `PropsLog.v` | same |
| `HttpServer.*` (pool of connections, ownership, destructor) | `Server.v`, `Life.v` | in `PropsServer.v`, `Life.v` | same, `PropsLife.v` |
| `parser/http_parser.c`, response half | `Joyent.v` | `RespSpec.v` | `Resp*.v`, `PropsResp`, `PropsResp2`, `PropsWire`, `PropsWire2` |
| `HttpClient.*`: `HttpResponseParser` | `RespParser.v` | `RespSpec.v` | same |
| `HttpClient.*`: `HttpRequestWriter`, `HttpClient` | `Client.v` | `ClientSpec.v` | `Client*.v`, `PropsClient.v` ... |
| `HttpClient.cpp`: `GunzipContentTransformer` (zlib a parameter) | `Gunzip.v` | in `PropsGunzip.v` | same |
| `HttpClient.*`: `NetworkReply`, `NetworkAccessManager` | `Nam.v`, `NamJar.v` | `NamSpec.v`, in `PropsJar.v` | `NamExt`, `NamInv`, `NamServe`, `PropsNam`, `PropsNam2`, `PropsJar` |
| `HttpHandlerProxy.*` | `Proxy.v` | `ConnSpec.v`, in `PropsProxy*.v` | `ProxyInv`, `PropsProxy`, `PropsProxy2` |
| `HttpHandlerQtScript.*` | `Script.v`, `ScriptHeaders.v` | in `PropsScript.v` | `PropsScript`, `PropsScript2` |
| `HttpsServer.*` (TLS itself a parameter: that encryption was started, with which key and certificate) | `Https.v` | in `PropsHttps.v` | same |

Not modelled at all: TLS itself, the examples other than the handlers of `fileserver` (`Files.v`), tests, the
request half and the URL parser of `http_parser.c` (pillow does not use them), build files.

### How

* Bytes are `list ascii`, integers `Z`.  Where C++ truncates or overflows, the model says so.  Undefined behaviour
  (null device, released or shared memory, signed overflow, failed `assert`) is an explicit outcome (`UB`, `CUB`, `PFault`), never assumed away.
* Signals are re-entrant.  A C++ function that emits a signal is suspended on an explicit stack of frames; the
  environment may then call any API function, deliver bytes, let the kernel take bytes, report errors, or return from the
  running slots.  A history is any finite list of such actions; there is no fuel in the state machines of the
  connection, the client, the server pool, the proxy pipe, the network manager.  (The parser loop of the client has a fuel
  computed from its input; `ClientInv.v`/`RespInv.v` prove that it never runs out.)
* The memory behind `requestContent()` and the header views is modelled (offset/length views into one buffer with
  Qt's reserve/clear/detach policy), so that "reads released memory" is an outcome.
* What Qt or the system computes and pillow only passes on is a parameter of the definitions (Section variables, discharged as
  universally quantified arguments): `QString::fromUtf8`, case folding, Unicode word characters, `toAscii`, MD5, gunzip,
  `QUrl::fromEncoded`, path conversion, the file system (a record of functions).  Theorems hold for all of them, or under stated hypotheses (for
  example that ports are between -1 and 65535).

### Simplifications, per part

* Connection: sizes of buffers below 2^31; `qWarning`; `isOpen()` of devices; `bytesWritten()` is a notification the
  environment sends at any time (also from inside `flush()`).  `initialize()` is only called when no slot of the connection runs (condition `polite`, where it is needed).
* Request parser: none; `ThinTable.v` is the program of `parser.c` lines 88-1139, state by state.
* Router: QRegExp is modelled for what `pathToRegExp` produces from literals, `.`, `* + ?` on one character, `:name`, `*name`; other
  regular expressions are outside of the model (`parse_regex` answers None).  Matching is that documented by Qt: leftmost, greedy.
* Handlers: a `QString` path is its bytes; the file system answers for one moment (`C41_race_refuted` uses two).
* Server: the listening socket is left out.  `Life.v` adds the sockets, failing descriptors, deleteLater() (runs when no slot runs) and the destructor (QObject deletes children in creation order; a socket destroyed while connected reports it; other slots do nothing meanwhile).
* Response parser: `F_SKIPBODY` never happens (the callback returns 0), `method` is constant.
* Client: `QTcpSocket` as in the header of `Client.v` (Qt 4: `connectToHost` refuses unless unconnected, `close()` may leave
  ClosingState).  A `readyRead` during parsing is the explicit fault `NestedRead`.  Deleting the client in its own slots is not modelled.
* Log lines: `QString::arg` is modelled from Qt's sources (`LogText.v`); texts are Latin-1 as in Qt 4.8; the address, the date and the localized numbers are
  arbitrary texts; that the request getters still give the request announced when the line is made (`about`) is C76_log_line (for lines made before the slots of requestCompleted have returned).
* Decoding and parameters: a getter called while no request is answered sees an arbitrary request (the memory may be anything), so that C77_decoded also
  covers caches filled with rubbish between requests.
* Head buffer: QByteArray's realloc, detach, reserve and append are written after Qt 4.8's sources; the contents of fresh memory and qAllocMore are arbitrary
  (record `memory_ok`); Qt 5 differs only in that `alloc` counts the final NUL (`b_alloc` is capacity()); the buffer of the request writer (C81) is modelled with its memory too; the one of chunk lines stays a byte string.
* Copies of request fields: both branches of setFromRawData* (Qt 4.8 and Qt 5), as a parameter of the theorems; the fields are set once per announced request; reading bytes that lie in the request
  buffer gives them while that request is answered and arbitrary bytes (`junk`) at all other times. Upload of proxied content: QNonContiguousByteDeviceBufferImpl
  as a pointer, a length and a position, read at arbitrary moments.
* Decompression: `inflate()` is a parameter; the positive theorems assume the record `Contract` of `PropsGunzip.v` (consumes input, does what it can, puts out
  the content before the checksum is consumed, fails only without input on a correct file), which a toy format is proved to meet.
* Network manager: the cookie jar and `QNetworkCookie` are parameters; what Qt does for schemes other than http, deletion of the clients without
  authority are left out; with several replies on one client (which calm histories exclude) the slots are not exact about content.
* Scripts: the interpreter is a parameter (its values; what a call does to the connection and how it ends, for any script); script text = bytes.
  The texts of the 500 answers of script files are a parameter.
* Proxy: how `QUrl` prints the target; `QNetworkRequest::setRawHeader` is as documented by Qt; a child manager of the elastic manager has only replies as children.

## 2. Trusted base

* Coq's kernel (8.16.1), its `vm_compute` (used for finite sweeps over the parser table and for concrete cases).
* Axioms: none.  `Print Assumptions` answers "Closed under the global context" for each of the theorems listed in MANIFEST.json
  (last checked for all of them together by generating one file; several `Props*.v` files also contain the commands).  The
  seven "library axioms" a scan finds are the fields of the module types of `Coq.ssr.ssrunder`, loaded by the standard library and used nowhere.
* Libraries: the standard library only.
* That the models read the C++ correctly; every definition says which lines it models, and where it simplifies.
  They were tested by `seeded/`: see section 4.

## 3. Properties: what is modelled and how it is proved

Every property of `properties.jsonl` is expressed in the model; none had to be left out.  "Calm", "polite", "clean" are defined in
the specification files next to their theorems.

| | modelled by | statement and proof |
|---|---|---|
| C01 | Conn | invariant over all histories: received bytes = images of the announced requests ++ rest; hence a function of the stream (uniqueness of the decomposition) |
| C02 C03 | Thin | automaton = grammar (both directions, first offending byte, incremental); fields = pieces of the text |
| C04 | Thin, Conn | proved except empty query; counterexample |
| C05-C09 | Conn | the history of a connection is a `Story` over its input stream: refusals, limits, content, 100-continue |
| C10 | Conn | simulation between a recycled and a fresh connection; counterexample when the buffer was shrunk |
| C11 C12 | Conn | exact text of the head; read back by an independent notion of response head |
| C13-C17 | Conn | per call, then per whole life of a request (protocol automaton over the log); chunked = decoder relation |
| C18 C19 | Conn | the log of every history is a story: order of signals and of responses |
| C20 C22 C23 C24 | Conn | invariant under conditions; counterexamples for the rest |
| C21 | Conn | accounting of output bytes (given = taken + waiting), flushing, release |
| C25-C34, C57 | Helpers, Params | round trips and characterisations for all inputs; dates by arithmetic over all days |
| C35 C41 C42 C58 C59 | Handlers | induction over handlers; all file systems; counterexamples |
| C43 | Handlers, Conn | induction over all schedules of bytesWritten |
| C36-C40 | Router | regular expressions denote `RouterSpec` patterns; first match; captures; counterexamples |
| C44 | Server, Conn | invariant of the pool over all histories of all its connections; counterexamples for each condition |
| C45 C60 | Client | requests re-read by the grammar and by `Conn`; dialog automaton over the log of every calm history |
| C46 | RespParser | splitting an input is invisible (simulation of the run by the two runs) |
| C47 C48 C50 | RespParser | whole responses, any cut, any prefix, streams of responses; counterexamples |
| C49 | Conn, RespParser | composition of C11-C14 and C47/C48 |
| C51 | Joyent, RespOver | run lemmas up to the last digit, wrap-around arithmetic; both bounds exact, counterexamples above |
| C52 C53 | Client | dialog automaton; simulation of the parser inside of the client; HEAD: no empty line before the end of a head, so the first event of the parser is the head; the walk of the parser from a cut to the report of the headers is unique and, if one byte is left then, keeps what it holds (HeadWalk.v); counterexamples |
| C54 C63 | Nam, Client | invariant of manager, pool, replies and clients over all calm histories; counterexamples |
| C55 C56 | Proxy, Conn | invariant of pipe and connection for every upstream behaviour; counterexamples |
| C61 C62 | Proxy, Upload | characterisation for all requests; invariant over all histories |
| C67 C68 | Client | invariants over all calm histories (latest finished() and the request; bytes given to the parser bound the content); counterexamples |
| C70 | Joyent, RespParser, Client | potential function over the parser states; an empty line is needed to end a head (invariant); the client: as C53_invalid |
| C69 | Gunzip, Client | induction over the pieces, for every zlib with the stated contract; counterexamples |
| C73 C74 | NamJar, Nam, Client | projection to C54/C63, at most one signal per step; invariants; counterexamples |
| C75 | LogText, Handlers, Conn | lemma on `QString::arg` with higher markers around it, eight times; induction over histories, via C58; cutting at separators; counterexamples |
| C76 | Conn, ConnLive | getters as positions in the present buffer; invariant over all histories, from the one of C01; counterexample |
| C77 | Getters, Params, Conn, ConnPhase, ConnLive | every step keeps, ends or starts an answer (`Phase`); invariant over all histories on the caches; counterexample |
| C78 | Conn, ConnPhase | invariant over all histories: the head made for the latest request is in the log; C11's RespHead; counterexamples |
| C79 | HeadBuf, Conn | memory of the buffer as a list of bytes, out of bounds = None; each append correct, composition, invariant over all histories; the appends of writeHeaders are shown to give Conn's head; counterexamples |
| C80 | FieldCopies, Conn | heap of control blocks with reference counts next to Conn's states; invariants over all histories of connection and user actions; counterexample for undetached copies |
| C81 | Writer, HeadBuf | the appends of HeadBuf composed, invariant over all histories of calls and devices; same pieces as the client model's writer |
| C82 | Conn, Serve | invariant relating the log to a dialogue with the handler over all polite schedules; uniqueness of response heads; progress by a measure (events still possible, kernel room, stack depth) |
| C83 | Client, Conn, Session, SessionServer | the product of both models and the bytes on their way; joint invariant: the bytes written by the server are a prefix of what the handler's answers to the client's requests dictate (foretold from C82), the client is in a run described by C53; progress: C84 for the client, C82_progress for the server, C85 for its not ending; HEAD requests by C53_head and C53_head_rest |
| C84 | Client, ClientInv | well-founded induction on the continuation stack, on what the parser still has to read inside one frame (PropsSettle.settles) |
| C85 | Conn | continuation-passing invariant over one step: an ended connection has a log that goes on with a refusal (PropsEnds.Pe), except for close() and completed_tail without keep-alive |
| C86 | Life, Server | ownership of sockets and connections on top of C44: invariant linking devices, posted deletions, children and history; destructor as two folds |
| C87 | Site, Router, Handlers, Conn, Client | the stack of router and 404 handler as a handler in the sense of C82/C83: one answer per request by C36–C39 (`C87_calls`), then C82_idle, C82_progress and C83_session specialised to it; a concrete site meets all hypotheses |
| C88 | Files, Handlers, Conn, Client | the handler stack of examples/fileserver as a handler in the sense of C82/C83: one answer per request by C42 and the file checks (`C88_calls`), then C82_idle, C82_progress_no_head and C83_session specialised to it; a concrete disk whose file changes between requests meets all hypotheses |
| C89 | Client, ClientRecv, ClientHead | the invariant of the reception of a response (C53) carries the state of the connection at its end (`Ended`); between two requests an induction over the idle actions keeps connection, time and timer; the decision of request() is then computed, its text from the invariant of C60 |
| C72 | Https, Server | induction over all histories |
| C71 | ScriptHeaders, Script, Conn | C11 and C12 for the head written; counterexample |
| C64 C65 C66 | Script, Conn | for every script and ending; induction over all histories of files and requests; counterexamples |

## 4. Tests of the theorems

`seeded/mutants*.py` are lists of realistic bugs put into the model (one edit each); `tools/mutate.py` applies each of them to a scratch copy, rebuilds, and
records which theorems stop proving.  `seeded/LOG.jsonl` has one line for each attempt; where a claim was broken
and no theorem failed, theorems were added or tightened (field `theorems_tightened`).

## 5. Defects found

Each is a theorem `..._refuted`; the list by property is in the notes of MANIFEST.json.  The most serious ones: a file handler that
serves siblings of its public directory (C41), a recycled connection that writes into Qt's shared null buffer (C10), content of one
response leaking into the next (C20, C43), null device dereference (C22), request smuggling by Content-Length overflow in the
client (C51) and by header text (C45), finished() emitted twice or never (C52), two network replies on one client (C54), chunked
proxied responses without terminating chunk (C56), pool corruption in the server (C44).
