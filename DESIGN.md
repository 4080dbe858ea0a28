# Formal model of mindstand/go-bolt

Rocq (Coq 8.16.1) sources are in `rocq/theories`. The Go sources in `/repo` are read as text; nothing
is compiled or executed. Properties are listed in `properties.jsonl`, their status in `MANIFEST.json`,
attempts to break the theorems with wrong programs in `seeded/LOG.jsonl`.

## Trusted base

* The Coq 8.16.1 kernel, including its VM (`vm_compute` is used for concrete witnesses).
* What `Print Assumptions` prints under each theorem of `Props*.v`. For every theorem it is "Closed
  under the global context": no axioms, neither our own nor from the standard library. (A survey of all
  loaded modules also lists seven parameters of the library file `ssr.ssrunder`. They come with the
  standard library's loaded modules and no theorem depends on them.)
* The reading of Go written in the comments of the model: fixed-width conversions wrap, failing type
  assertions panic, `make` panics on negative sizes, `bytes.Buffer.Next`, `io.ReadFull`,
  `encoding/binary`, `time.Unix/Add/In`, map iteration in any order, `sync.Mutex` and `sync.RWMutex`.
* Descriptions of libraries whose source is not in the sandbox:
  * Go 1.14 `net/url` (`Url.v`): `Parse`, `Query`, escapes. In that version `;` separates query fields.
  * Go `strings` and `strconv` (`GoStr.v`, `Url.v`).
  * go-commons-pool v2.0.0 (`DriverPool.v`): `BorrowObject`, `ReturnObject`, `Close` under the settings
    of driver_pool.go:21-35. In particular `allObjects` is keyed by the object first created.
  * gotime: a value stands for the numbers its accessors return.
* That each definition says what the Go lines cited above it say (by inspection).

## What is modelled

| code in `/repo` | model | specification | proofs | theorems |
|---|---|---|---|---|
| encoding/, structures/, encode_consts | `Bytes` `GoErr` `GoVal` `Encoder` `Decoder` `Memory` `Stdout` `Refs` | `SpecPack` `SpecValues` `SpecCodec` `SpecGrammar` `SpecRefuse` `SpecMemory` `SpecStdout` `SpecRefs` `SpecCut` | `BytesFacts` `PackFacts` `DecodeFacts` `ValueFacts` `FrameFacts` `WriteFacts` `ReadFacts` `TotalFacts` `CutFacts` `CutExact` `LinkFacts` `ShapeFacts` `TimeFacts` `RecvFacts` `CodecFacts` `GrammarFacts` `RefuseFacts` `MemoryFacts` `StdoutFacts` `RefsFacts` `FaresFacts` | `PropsCodec` C01-C25, C82, C83, C114, C115; `PropsStdout` C129; `PropsRefs` C130 |
| structures/messages, protocol/ | `Messages` | `SpecParse` `SpecServer` `SpecDialect` | `ParseFacts` `MessageFacts` `DialectFacts` | `PropsMessages` C26-C30, C84-C86 |
| connection/connection.go, transaction.go, result.go | `Connection` `Result` `Concurrency` `Link` `Wire` `Settings` | `SpecServer` `SpecSession` `SpecTalk` `SpecEcho` `SpecTurns` `SpecReport` `SpecSocket` `SpecSettings` | `ExecFacts` `ServeFacts` `CallFacts` `WireFacts` `OpenFacts` `AnyNetFacts` `SessionFacts` `TxFacts` `WatchFacts` `TalkFacts` `WishFacts` `ResultFacts` `ConcurFacts` `UnguardedFacts` `EchoFacts` `TurnFacts` `ReportFacts` `HangFacts` `SettingsFacts` `SettingsCases` `Demo` `DemoFacts` `Cases` `CaseFacts` | `PropsConnection` C31-C45, C87, C88, C121, C122, C125; `PropsSocket` C131 (and C39, C75); `PropsSettings` C132 |
| routing/ | `GoStr` `Routing` `Pool` `PoolRace` `Refresher` | `SpecPool` `SpecLife` | `RoutingFacts` `PoolFacts` `LendFacts` `SteadyFacts` `WatchPoolFacts` `EraseFacts` `RouteFacts` `SizeFacts` `LimitFacts` `RotateFacts` `ReturnFacts` `TwiceFacts` `RaceFacts` `ExcludeFacts` `TableFacts` `RoundFacts` `DemoPool` `DemoPoolFacts` `PoolCases` `StopCases` `RoundCases` `StartCases` `LifeFacts` `LifeCases` `RefresherFacts` `RefresherCases` | `PropsRouting` C46-C60, C93-C103, C105, C110, C123 |
| client.go, opt.go, driver.go, driver_routing_pool.go, connection.go:92-234 | `Url` `Client` `Refusal` | `SpecClient` `SpecRefusal` | `UrlFacts` `ClientFacts` `ClientCases` `ClientSeedFacts` `OptionFacts` `RefusalFacts` | `PropsClient` C61-C65, C104, C112, C118-C120 |
| errors/errors.go, log/log.go, encoderV2.go:82 | `Errors` `Log` `Texts` `Printout` | `SpecClient` `SpecTexts` `SpecPrintout` | `MiscFacts` `TextFacts` `PrintoutFacts` | `PropsClient` C66-C67, C89-C90, C116-C117 |
| deadlines (connection.go:23-58, 172-196), the time calls take, sharing of the deadline | `Timing`, `Clock`, `SocketRace` | `SpecTime`, `SpecStop` | `DeadlineFacts`, `GiveUpFacts`, `SendFacts`, `ClockFacts`, `ClockCases`, `SocketFacts` | `PropsTime` C91-C92, C106-C109, C113 |
| driver_pool.go, connection_pool_factory.go | `DriverPool` `DriverUsers` | `SpecDriver` `SpecUsers` | `DriverFacts` `DriverHistory` `UserFacts` `DemoDriver` | `PropsDriver` C68-C73, C111, C124 |
| both pools over sessions (connection.go:258-327, transaction.go, driver_pool.go, routing/pool.go together) | the models above | `SpecShare` `SpecHolder` | `RestFacts` `ShareCases` `PrepFacts` `ShareFacts` `RouteShare` `DemoShare` `HolderFacts` `HolderCases` | `PropsShare` C74-C81, `PropsHolder` C127 |
| from client options to what a routing pool dials (client.go, driver_routing_pool.go, routing/pool.go, connection.go:92-153 together) | the models above | `SpecDials` | `DialFacts` | `PropsDials` C128 |
| from client options to the server that executes a statement of a routing client (client.go, driver_routing_pool.go, routing/, connection.go together) | the models above | `SpecJourney` | `JourneyFacts` `JourneyCases` | `PropsJourney` C133 |
| the routing pool with borrowers that end their transactions (routing/, connection.go together) | the models above | `SpecManners` | `TouchFacts` `MannersFacts` `CareFacts` `MannersCases` | `PropsManners` C134–C136 |
| what becomes of the connections a routing pool opens (routing/pool.go) | the models above | `SpecBooks` | `BooksFacts` `AliveFacts` `BooksCases` | `PropsBooks` C137 |
| how many connections a driver pool has open (driver_pool.go, connection_pool_factory.go) | the models above | `SpecCrowd` | `CrowdFacts` `CrowdCases` `CrowdGrows` | `PropsCrowd` C138 |
| how many connections a routing pool has open (routing/pool.go) | the models above | `SpecThrong` | `ThrongFacts` `ThrongAlive` `ThrongCases` `LeaveGrows` | `PropsThrong` C139 |
| how many connections a routing pool has while goroutines use it at once (routing/pool.go) | the models above | `SpecCrew` | `CrewFacts` `CrewSize` | `PropsCrew` C140 |
| how many connections a routing pool leaves open while goroutines use it at once (routing/pool.go) | the models above | `SpecLeave` | `LeaveFacts` `LeaveSize` `LeaveCases` | `PropsLeave` C141 |
| how many connections of each kind a routing pool has while goroutines use it at once (routing/pool.go) | the models above | `SpecKinds` | `KindFacts` `KindSize` `KindCases` | `PropsKinds` C142 |
| what becomes of the connections a routing pool opens while goroutines use it at once (routing/pool.go) | the models above | `SpecLedger` | `LedgerFacts` `LedgerStep` `LedgerRun` `FirmFacts` `LedgerCases` | `PropsLedger` C143 |
| from client options to rows (client.go, driver.go, connection.go together) | the models above | `SpecWhole` | `WholeFacts` | `PropsWhole` C126 |

How the layers are cut:

* Encoder: the type switch turns a Go value into a tree of items (`lower`). `enc` lists the `Write`
  calls for the tree. `enc_write` and `flush` execute them on the chunk buffer and on a link that may
  die at any byte.
* Decoder: a reader is a list of fragments followed by an error, so every fragmentation is a state.
  Decoding returns a value, an error or a panic. Fuel is an explicit fourth outcome and is excluded by
  theorems.
* Connection: calls are programs over an arbitrary network (`Connection.v`). They run against a
  conforming server at the level of messages (`Link.v`) and at the level of bytes (`Wire.v`, which uses
  the encoder and decoder). `WireFacts.v` proves that the second behaves like the first. `AnyNetFacts.v`
  has what holds whatever the peer does.
* Goroutines: interleavings of network steps under the connection's mutex (`Concurrency.v`), and of
  lock-protected steps of the routing pool (`PoolRace.v`).
* Routing pool and driver pool: state machines over an abstract cluster or network. Connections are
  numbered; a history is the list of operations with their results.
* Sharing: a world in which the pool's connections are sessions with conforming servers, and their
  holders make calls on them between the pool's operations (`SpecShare.v`). `DemoShare.v` builds such
  worlds from the byte-level model, for both pools.
* Client: options are functions on a record, connection strings are built and read back through the
  model of `net/url`.

## Convention for statements that do not hold

If the code violates the English property, `Cnn_..._refuted` proves the violation from a witness, and
`Cnn_..._partial` proves the strongest part found that does hold. The status is then `partial`; the note
in `MANIFEST.json` says what is missing. Several witnesses are defects of the code, for example: sizes
read as signed numbers, durations decoded as a product, uint wrapping, a replaced pool connection that
cannot be given back, negotiated version 4 requests.

## Not modelled

* The Go scheduler, garbage collection, memory exhaustion. (Except: `Memory.v` counts the elements that
  the decoders reserve and how deep they call themselves.) Wall-clock time is modelled for reading and
  sending a message, for dialling (`Timing.v`) and for whole calls and openings (`Clock.v`); in the pools a
  timeout is an error that a read or write may return at any point.
* TLS and TCP themselves, the reading of certificate files, DNS.
* The wording of single error messages and stack traces, except of those that refuse a connection string (`Refusal.v`); how `Error()` composes them is (`Texts.v`). Of the
  text written by log/log.go only `SprintByteHex` is modelled, whether a line is written, and what the encoders show (`Printout.v`).
* Trivial accessors (for example connection.go:155-170, result.go:70-72, log.go:56-58), `doc.go`, tests,
  and functions nothing calls (encoderV2.go:187-200 `roundTime`, encoding/util.go:40-50).
* Overlap inside a dial, inside the overview query, or among the marks a refresh sets: each is one step of `PoolRace`. All operations of the
  routing pool may overlap there.
