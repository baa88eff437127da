# Formal model of GMLC-TDC/HELICS in Rocq (Coq 8.16.1)

The sources in /repo are read as text and never run. The model is in `rocq/theories/`:
total, computable Gallina functions that follow the C++ function by function. Each definition
carries a comment with the file and lines it models and says where it simplifies.

Conventions

* `X.v` – model; `PropsX*.v` – property theorems (named `Cnn_…`) with a small specification at the top
  of the file or in `XSpec.v`; the other files hold lemmas.
* `Cnn_…_partial` proves part of a property. `Cnn_…_refuted` proves that the code, as modelled, does
  *not* satisfy the literal English statement on a concrete history; the note in MANIFEST.json says what
  holds instead. Such a theorem is evidence about the code, not a weakening hidden in a hypothesis.
* Every hypothesis is met by an `Example`/`…_nonvacuous` next to the theorem, evaluated on a concrete state
  reached by running the model.
* `tools/mutate.py` edits a definition in a scratch copy and rebuilds; outcomes are in `seeded/LOG.jsonl`.

## Trusted base

* Coq 8.16.1's kernel (including its `vm_compute` reduction machine, used in the examples and witnesses) and
  the standard library's definitions.
* **Axioms: none.** `Print Assumptions` answers `Closed under the global context` for every theorem named
  in MANIFEST.json (all when last run, script in "Checking" below). The gate's file-level scan
  (`coqchk`-like) also lists seven entries `Coq.ssr.ssrunder.Under_rel.*`: these are the fields of a module
  type of the standard library's `ssreflect` that is loaded through `ZifyBool` (used by `lia`); no theorem
  depends on them.
* No plugin, no functor, no module type, no `Variable`/`Hypothesis` outside a `Section`, no `Admitted`.
* **The reading of the C++.** The model is written by hand; its tie to /repo is the line citations.
* **What third parties do**, taken as documented because their sources are not in /repo:
  the quotient in `std::ceil(...)` at TimeCoordinator.cpp:511, computed in `double`, is taken as exact (true while the
  number of periods is below 2^53);
  `helics::Time` is a signed 64-bit count of nanoseconds (`maxVal = 2^63-1`, `minVal = -(2^63-1)`,
  `epsilon = 1`) whose addition saturates at neither end – the theorems carry range hypotheses where overflow
  would matter; `gmlc::containers::BlockingPriorityQueue` is two FIFO queues, the priority one served first;
  `gmlc::networking::TcpConnection` keeps the bytes its callback did not use and offers them again, followed
  by new ones; `std::regex`, JSON parsing and asio timers are arbitrary functions / arbitrary schedules
  (universally quantified parameters of the theorems).
* **Atomicity.** A method that holds its object's lock for its whole body is one step. Where the code
  releases a lock between a check and its effect (`MessageTimer`, `LogBuffer`, `BrokerBase::setBrokerState`)
  the model has separate steps and the theorems range over the interleavings, or a `_refuted` witness shows
  what goes wrong.

## What is modelled

| model file | code |
|---|---|
| `HTime`, `Action` | `Time` arithmetic; `ActionMessage` fields, command codes (`ActionMessageDefintions.hpp`) and flag positions |
| `TimeDep` | `TimeDependencies.cpp` (`DependencyInfo`, table, `generateMinTime*`, `checkIfReadyFor*`, `updateTime`) |
| `TimeCoord` | `TimeCoordinator.cpp` (requests, `updateTimeFactors`, `checkTimeGrant`, `checkExecEntry`, blocks, `processTimeMessage`) and `BaseTimeCoordinator.cpp` (dependency handling) |
| `TimeProc` | the part of `FederateState.cpp` that feeds the coordinator and turns its answers into grants |
| `Network`, `Promise`, `Mine` | any number of such federates exchanging commands under any schedule |
| `Forward` | `ForwardingTimeCoordinator.cpp`, `generateMinTimeUpstream/Downstream` (brokers and cores) |
| `Interfaces` | `InputInfo.cpp`, `PublicationInfo.cpp`, `EndpointInfo.cpp` incl. options |
| `Codec`, `Bundle`, `MsgConv` | `ActionMessage.cpp` (binary form, packet framing, bundles, messages↔commands), the queue of `BrokerBase.cpp`, stream reassembly in `TcpComms` |
| `Values` | `helicsTypes.cpp`/`ValueConverter_impl.hpp` binary value formats |
| `Buffer` | `SmallBuffer.hpp` with explicit inline/heap storage and block identities |
| `Ids` | `basic_CoreTypes.hpp`, `GlobalFederateId.hpp`, id arithmetic, flag helpers |
| `Handles` | `HandleManager.cpp`, aliases |
| `Connect` | the root broker's and `UnknownHandleManager.cpp`'s matching of connection requests |
| `Monitor` | `TimeoutMonitor.cpp`, broker state changes of `BrokerBase.cpp` |
| `Timer`, `LogBuf` | `MessageTimer.cpp`, `LogBuffer.cpp` |
| `Filters` | `FilterOperations.cpp`, `MessageOperators.cpp` |
| `FilterFed` | `FilterFederate.cpp`, `FilterCoordinator.cpp`, `FilterInfo.cpp` and the sending/receiving paths of `CommonCore.cpp` around them |
| `FedApi` | `Federate.cpp`: the mode machine, asynchronous calls, callbacks |
| `Route` | `CoreBroker.cpp` registration of brokers and federates, acknowledgements, delayed messages, `getRoute`, `routeMessage`; the same parts of `CommonCore.cpp`; a network of such nodes on a tree with reordering and loss |
| `InitMode` | `CoreBroker.cpp` `allInitReady`, CMD_INIT, CMD_INIT_NOT_READY, CMD_INIT_GRANT, the counting side of the registrations; `CommonCore.cpp` `enterInitializingMode`, `allInitReady`, `processInitRequest`, DELAY/ENABLE_INIT_ENTRY; a tree of such nodes with two queues to the parent |
| `Shutdown` | `CommonCore.cpp` `finalize`, `processDisconnectCommand`, `checkAndProcessDisconnect`, `sendDisconnect`, `processDisconnect`, the disconnect timer; `CoreBroker.cpp` `processBrokerDisconnect`, `disconnectBroker`, `sendDisconnect`, CMD_DISCONNECT_BROKER_ACK, CMD_STOP, CMD_BROADCAST_DISCONNECT, CMD_DISCONNECT_FED; `FederateState.cpp` CMD_DISCONNECT; a tree of such nodes with queues both ways |
| `Query` | `JsonBuilder.cpp` `JsonMapBuilder`; `CoreBroker.cpp` and `CommonCore.cpp` `initializeMapBuilder`, `generateQueryAnswer`/`coreQuery` (the collecting kinds), `processLocalQuery`/`processQueryCommand`, `processQueryResponse`, `checkInFlightQueries`/`checkInFlightQueriesForDisconnect`, `generateMapObjectCounter`; one node with its children |
| `GlobalTime` | `GlobalTimeCoordinator.cpp` with the parts of `BaseTimeCoordinator.cpp` and `TimeDependencies.cpp` it uses; the root broker of a federation with `--timing=global` |
| `Deliver` | `CommonCore.cpp` setValue and the two subscriber notices, the way of a value through `CommonCore.cpp` and `CoreBroker.cpp` (with `Route` and `Bundle`) to the queue of the federate |
| `Mail` | `CommonCore.cpp` registerEndpoint, sendTo, send, registerInterface, deliverMessage; `CoreBroker.cpp` addEndpoint, fillMessageRouteInformation and the way of a message (with `Route`) |
| `Errors` | `CommonCore.cpp` globalError, localError, sendErrorToFederates, processLogAndErrorCommand; `CoreBroker.cpp` globalError, processError, broadcast; `BrokerBase.cpp` setErrorState; the errors in `FederateState.cpp` |
| `Command` | `CommonCore.cpp` sendCommand, CMD_SEND_COMMAND, CMD_SEND_COMMAND_ORDERED; `CoreBroker.cpp` processCommandInstruction; `FederateState.cpp` sendCommand, getCommand, waitCommand |
| `MsgFed` | `MessageFederateManager.cpp` updateTime, getMessage, hasMessage, pendingMessageCount; `FederateState.cpp` receiveAny, getQueueSize, fillEventVector... for endpoints |
| `MinChange` | `Publications.cpp` publish; `Inputs.cpp/.hpp` getValue, isUpdated, checkUpdate, setMinimumChange; `helicsPrimaryTypes.cpp` changeDetected; `ValueFederateManager.cpp` getUpdateFromCore |
| `MultiIn` | `Inputs.cpp` vectorDataProcess and its operations; `helicsPrimaryTypes.cpp` valueConvert; `helicsTypes.cpp` helicsBoolValue; `ValueFederateManager.cpp` getUpdateFromCore for multi-inputs |
| `PlayerApp` | `apps/Player.cpp` sendInformation, runTo; the time requests are a relation |
| `SourceApp` | `apps/Source.cpp` initialize, runTo, runSource, runSourceLoop; the time requests are a relation, the catch-up arithmetic a parameter |
| `RecorderApp` | `apps/Recorder.cpp` initialize, captureForCurrentTime, runTo; grants with their updates and messages are the input |
| `BarrierNet` | `CoreBroker.cpp` generateTimeBarrier, setTimeBarrier, clearTimeBarrier, the barrier sent to a new federate |

Not modelled: sockets, threads and process start-up (`network/*` except the framing and reassembly code),
configuration parsing (TOML/JSON/command line), queries, logging output, the C and language bindings, apps
(player, recorder, tracer …), translators, profiling, `GlobalTimeCoordinator`/`AsyncTimeCoordinator` unless
listed above, units, encryption, the core registry and factories, `CommonCore` outside the message paths named above.

## Properties

"Histories" means finite lists of events of any length, in any order, starting from a freshly constructed object.

| id | model | theorem and method | limits and refuted readings |
|---|---|---|---|
| C01 | TimeCoord, TimeProc | invariant over all event histories of one federate; successive grants never decrease, strictly increase by the minimum step when not iterating | step size needs a non-negative input delay and options unchanged while waiting |
| C02 | TimeDep, TimeCoord | case analysis of the grant decision over a fold lemma for the table minimum; `PropsTime7` follows the entry of one dependency to the decision for the grants which must be strictly before its promise | positive input delay: general bound proved, strict reading refuted |
| C03 | TimeCoord | grid invariant, integer division | execution entered at 0; forced grants excluded |
| C04 | TimeCoord | bounds carried through the update functions | refuted when offset = time delta at time 0 |
| C05 | TimeCoord | blocks computed from the message history alone; grant < block; min of blocks | forced grants are the documented override |
| C06, C07 | TimeDep, TimeCoord | forall over the table; counter invariant | dynamic joiners' initialization iterations are not counted (refuted) |
| C08 | TimeDep | ordered-vector invariant; refinement to the history of adds and removes | |
| C09 | TimeDep, TimeCoord | two runs related step by step: decisions equal those with the departed entry struck out | it must stay silent afterwards |
| C10 | Network | global invariant: every promise on the wire or in a table is still kept by its maker | partial: restrictive policy, fixed options, no forced grants, no dynamic join; delivered commands `plain`, environment commands `honest`. Default policy **refuted** (chain of four, FIFO, each command delivered once) |
| C11 | Forward | fold lemmas and invariant over all histories; event times safe too (`PropsForward2`); who is told (`PropsForward3`) | dependencies past initialization; stale report on dynamic join refuted |
| C12–C17 | Interfaces | refinement to an arrival-order specification (`InputSpec`), induction over operation lists | see MANIFEST notes for the options excluded and the witnesses |
| C18, C19 | Interfaces | refinement to a stable priority queue | calls atomic (locked in the code) |
| C20–C22 | Codec | byte-level reader in which reading outside the buffer is a distinct outcome; `decode (encode m) = m`; totality and safety for every byte string | JSON reader is any function; reuse of a loaded buffer refuted |
| C23 | Codec | every field but the sequence number | partial: the sequence number is not byte-swapped (refuted) |
| C24 | Values | round trips for every value | string vectors (JSON) excluded; ≥ 2^24-byte strings refuted |
| C25 | Buffer | refinement to byte lists with ownership invariant over all operation sequences | swap of inline with heap, self-append refuted |
| C26, C30 | Ids | linear arithmetic, `Z.testbit` | beyond 2^26 brokers/federates refuted |
| C27, C28 | Handles | refinement to association lists, alias closure | each excluded case has a witness |
| C29 | Connect | invariant over all histories of the root broker | three departures refuted |
| C31 | Interfaces | case analysis per option | options that do not read back are listed as refuted |
| C32, C41 | Monitor | invariants over all ticks/replies; state graph | separated load/store refuted |
| C33 | Timer | all interleavings of calls, callbacks and hand-overs | strict "never after cancel" refuted |
| C34 | LogBuf | buffer = last n pushes | overlapping resize/push refuted |
| C35 | Filters | exact effect of every operation, all configuration histories | text delays can be negative, `$` expansion, firewall defaults (refuted) |
| C36 | FilterFed | invariant: outstanding messages ↔ held timing commands; announced time | destination filters elsewhere and overtaking answers (refuted) |
| C37 | FedApi | case analysis of every call in every mode, induction over programs; automata for the order of core calls | one calling thread; error after finalize, single-thread iterative call, failing core calls (refuted) |
| C38 | Bundle | refinement to two FIFOs | queue class is a dependency |
| C39 | Bundle | list induction | |
| C40 | Codec | induction over arbitrary cuts of the byte stream | `TcpConnection` as documented |
| C42 | MsgConv | direct, composed with C20 | |
| C43 | FilterFed | trace of a message through chains on several cores (`journey`) | closed filters, lost answers, missing operators (refuted) |
| C44 | Route | invariant of the whole tree (`RouteInv.inv`: every table entry leads towards the owner, every acknowledgement on the wire is justified by the root's table, one token per pending registration), preserved by every event; routing by induction on the depth; a balance equation per step for the answers (`RouteLive`) | repeated node registrations (refuted), child federates with fixed ids, re-entrant federates |
| C45 | InitMode | invariants of every history of the tree (`PropsInit.limInv`, `regInv`: a grant on its way was sent when the root's limits held; `inv`: a ready node has ready children and every federate of a ready core has asked) | observers, dynamic and re-entrant federates, disconnection during initialization, errors; grants in histories with iterations only as far as the limits |
| C46 | Shutdown | safety: `PropsShutdown.inv` (a node that stops, or is told to, has all its federates called or cut off), `ginv` under --global_disconnect; liveness: `ShutdownLive.linv` relates every child to its parent (who left was told, or will be), `ShutdownEnd.finv` every federate to its core; in a state where no command is left these force Stop from the leaves to the root and back; termination: `ShutdownTerm.mu`, a weighted count of commands and of nodes and federates not yet stopped, drops with every command processed | errors, filter and translator federates, late registrations, lost links, entries for brokers further down |
| C47 | Query | `C47_each_query_waits_or_is_answered_once` by counting answers and waiters over all histories; `QueryInv.inv`: outstanding requests are exactly the missing entries of the maps; `QueryLive.follow` follows one map from the query to its answer; `QueryOverlap.winv` the weaker invariant with overlapping queries at a broker; `QueryCache.since` the counter code of a map | query timeouts, the text of answers (numbers), addBaseInformation, generateGlobalStatus, queries to a single target, the tree above and below (C44 covers routing) |
| C48 | GlobalTime | `GlobalInv.gstep_parts` splits every step into taking in the message, one action (nothing, a round of questions, a permission) and a tail; `PropsGlobal.inv` keeps with every state of waiting the point of the history where its round began, and that nothing was asked since; `GlobalLive.good` for the liveness half; `GlobalExec.execOk` for the beginning of the execution | the federates (their coordinators are C01-C10), the delivery of the questions, the routing through brokers which forward them |
| C49 | Deliver | the routing of a registered federate never changes (`hop_same`), so the way of a value is a fixed simple path (`way_nodup`); `J`: what has arrived, followed by what is on the connections of the path from its end to its start, is what was sent; every event keeps this (`J_run`); draining the path from its start empties it (`drain_way`) | the networks below, other traffic than values, the input itself (C12-C15) |
| C50 | Mail | `placed`: each message is on one connection once or has one end; `traced`: names and messages come from registrations and sending; `stage`: a name is unknown, announced up to one node of the path to the root, or known on all of it; `MJ`: what has arrived, followed by what is on the connections of the path, is what was sent | filters, translators, aliases, the networks below |
| C51 | Errors | `Inv`: the shape of the errors on each kind of connection; a node which has told the nodes below it has told each of them, or the error is on the connection; `R`: an error for the root is on its way up, or the root has told; `drain`: working off one connection | the disconnection after an error, CMD_ERROR, callback federates, errors between time coordinators |
| C52 | Command | one stream (core, name, mode) at a time: `J`: what has arrived, followed by what is on the connections of its way from the end back, is what was sent; `drain` along the way; the queue by induction on the history | registration while commands are under way, targets which are cores or brokers, answers of HELICS itself, quotes |
| C53 | MsgFed | `move_all`: while the count is positive, the endpoint with the earliest message has a due one; `flows`: moving keeps readable ++ waiting; histories by induction | callbacks during updateTime, endpoints registered later |
| C54 | MinChange | publications: the previous value is the last one sent, by induction over the history; inputs: simulation by a shown value and one flag | complex vectors, publishDefV, rounding of the difference, inputs from sources which are not doubles |
| C55 | MultiIn | the collecting loop equals the present sources with their units; each operation against a list specification; histories by simulation with the newest value of each source | rounding, complex numbers, named points, NaN from a source, the maximum of texts |
| C56 | PlayerApp | big-step relation for the loop; published ++ remaining is constant; what remains lies after the current time and iteration | file formats, console output, points added after initialize |
| C57 | SourceApp | invariant per publication: next = start + n period, n values published, the next one after the current time; the minimum of the next times is requested | values of the generators, configuration files, overflow of Time, console output |
| C58 | RecorderApp | what is recorded per subscription is the concatenation over the grants used; counters count the points; times and iterations increase | output files, map file, console output, subscriptions added after initialize |
| C59 | BarrierNet, with C05 | every federate's list of barrier messages leaves it with the barrier of the root; C05 turns that into grants | brokers in between, disconnected cores, observers |

## Checking

`cd rocq && coq_makefile -f _CoqProject -o Makefile && make -j4`, then `vcheck`. `tools/assumptions.py` prints the
assumptions of every theorem of the manifest.
