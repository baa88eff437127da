{"id": "C01", "title": "Granted time never goes backwards", "statement": "Through any interleaving of time requests, received timing messages, data arrivals, barriers, forced grants and disconnects, the time returned to a federate by successive grants never decreases; while not iterating each grant is strictly later than the previous one by at least the configured minimum step (time delta / period).", "quantifier": "every configuration of the federate's timing properties, every finite history of requests and incoming messages", "why_tests_cant": "a test drives a handful of schedules; the claim is over every history and every property combination", "anchors": ["src/helics/core/TimeCoordinator.cpp: timeRequest, updateNextExecutionTime, getNextPossibleTime, updateTimeGrant, checkTimeGrant, processTimeMessage"]}
{"id": "C02", "title": "No federate is granted a time its dependencies have not released", "statement": "When a non-iterating time request is granted at time t, every federate it depends on has already announced (via its last timing message) that it will not produce anything earlier than t minus the input delay; a dependency still at an earlier time always blocks the grant.", "quantifier": "every dependency table (any number of dependencies, any state), every timing configuration without iteration", "why_tests_cant": "needs all dependency tables and all message orders", "anchors": ["src/helics/core/TimeCoordinator.cpp: checkTimeGrant, updateTimeFactors", "src/helics/core/TimeDependencies.cpp: generateMinTimeTotal, checkIfReadyForTimeGrant"]}
{"id": "C03", "title": "Granted times stay on the period/offset grid", "statement": "With a period configured, every time a federate is granted in response to a time request equals offset + k*period for a whole number k (given it entered execution at time zero).", "quantifier": "all periods, offsets, requested times, data arrival times and histories", "why_tests_cant": "tests sample a few periods; arithmetic claim over all integers", "anchors": ["src/helics/core/TimeCoordinator.cpp: generateAllowedTime, getNextPossibleTime"]}
{"id": "C04", "title": "A grant never overshoots the request except to the next permissible step", "statement": "The granted time is never later than the requested time rounded up to the federate's next permissible time; and if no data arrives before the requested time the grant is exactly that time.", "quantifier": "all requests, configurations and pending-data times", "why_tests_cant": "universally quantified arithmetic over request, data and configuration", "anchors": ["src/helics/core/TimeCoordinator.cpp: timeRequest, updateNextExecutionTime, checkTimeGrant"]}
{"id": "C05", "title": "A time barrier blocks every grant at or beyond it", "statement": "While a barrier/time block at time b is active, no time request is granted at a time >= b, regardless of how dependencies advance; clearing it restores normal granting, and several blocks act as their minimum.", "quantifier": "all sequences of block/unblock/barrier/clear messages interleaved with time checks", "why_tests_cant": "unbounded histories of block and unblock operations with arbitrary ids", "anchors": ["src/helics/core/TimeCoordinator.cpp: updateTimeBlocks, processTimeBlockMessage, checkTimeGrant, checkExecEntry"]}
{"id": "C06", "title": "Execution mode is entered only when every dependency is ready", "statement": "A federate is moved to executing mode without iteration only if each dependency has itself requested execution (or is already granted/further/errored/disconnected); a dependency that has only been created or initialized blocks it.", "quantifier": "all dependency tables and initialization message orders", "why_tests_cant": "all interleavings of entry requests", "anchors": ["src/helics/core/TimeCoordinator.cpp: checkExecEntry", "src/helics/core/TimeDependencies.cpp: checkIfReadyForExecEntry, checkIfAllDependenciesArePastExec"]}
{"id": "C07", "title": "Initialization and time iteration always terminates at the iteration limit", "statement": "With ITERATE_IF_NEEDED a federate leaves initialization once the configured maximum number of iterations has been reached, whatever data keeps arriving; forced iteration keeps time unchanged.", "quantifier": "all maximum iteration values, all data arrival patterns", "why_tests_cant": "unbounded iteration histories", "anchors": ["src/helics/core/TimeCoordinator.cpp: checkExecEntry, checkTimeGrant, updateTimeGrant"]}
{"id": "C08", "title": "The dependency table has one entry per federate and lookups are exact", "statement": "After any sequence of add/remove dependency/dependent operations and timing messages, isDependency/isDependent answer exactly according to the latest add or remove for that federate, no duplicate entries exist, and operations on one federate do not affect another.", "quantifier": "all finite operation sequences over all federate ids", "why_tests_cant": "unbounded operation histories", "anchors": ["src/helics/core/TimeDependencies.cpp: addDependency, addDependent, removeDependency, removeDependent, removeInterdependence, isDependency, isDependent, getDependencyInfo"]}
{"id": "C09", "title": "A disconnected or errored dependency never blocks time", "statement": "Once a dependency has announced disconnect (or error), it no longer holds back any time grant, whatever its earlier state; conversely messages from federates that are not dependencies have no effect on granting.", "quantifier": "all table states and later message histories", "why_tests_cant": "all crash/disconnect points", "anchors": ["src/helics/core/TimeDependencies.cpp: processMessage, updateTime, checkIfReadyForTimeGrant, generateMinTimeTotal"]}
{"id": "C10", "title": "Conservative synchronization: no event is delivered into a federate's past", "statement": "In a federation of directly connected federates exchanging timing messages over reliable in-order links, whenever a federate is granted time t no other federate it depends on can afterwards publish a value with a timestamp earlier than t.", "quantifier": "any number of federates, any dependency graph, any request sequence, any message delivery schedule", "why_tests_cant": "distributed schedule space is infinite", "anchors": ["src/helics/core/TimeCoordinator.cpp: timeRequest, checkTimeGrant, sendTimeRequest, updateTimeGrant, processTimeMessage", "src/helics/core/TimeDependencies.cpp: processMessage"]}
{"id": "C11", "title": "Broker time aggregation is the minimum over its children", "statement": "While every federate and broker it depends on is past initialization, a broker forwarding timing reports to each neighbour a time no later than what any active federate it speaks for (excluding the one being informed) has announced (its next time; under the default policy the later of its next time and its earliest possible dependent event), so no intermediate broker can release time early; and it lets nobody enter execution mode before everybody has asked.", "quantifier": "all child tables, all message orders", "why_tests_cant": "all tables and ignore sets", "anchors": ["src/helics/core/ForwardingTimeCoordinator.cpp: updateTimeFactors, generateTimeRequestIgnoreDependency", "src/helics/core/TimeDependencies.cpp: generateMinTimeUpstream, generateMinTimeDownstream"]}
{"id": "C12", "title": "An input shows exactly the most recent value at the granted time", "statement": "After advancing an input to time t, the current value of each source is the last value (by time, then iteration, then arrival order) published at or before t (strictly before for the exclusive update), and all later values remain queued for later.", "quantifier": "all arrival orders of all values from any number of sources, all advance sequences", "why_tests_cant": "unbounded queues and arrival permutations", "anchors": ["src/helics/core/InputInfo.cpp: addData, updateTimeUpTo, updateTimeInclusive, updateTimeNextIteration, updateData"]}
{"id": "C13", "title": "Input value queues are always time ordered and their accounting is exact", "statement": "Whatever order values arrive in, each source's queue stays sorted by (time, iteration), the next-value time reported equals the earliest queued time over all sources, and the reported queued byte count equals the sum of the queued payload sizes.", "quantifier": "all histories of add/advance/remove/clear operations", "why_tests_cant": "unbounded histories", "anchors": ["src/helics/core/InputInfo.cpp: addData, removeSource, clearFutureData, nextValueTime, queuedDataSize"]}
{"id": "C14", "title": "No value is accepted from a source that is not connected or has been disconnected", "statement": "A value from an unknown source, or from a source with a timestamp after the moment it was removed or its federate disconnected, is never stored; values before that moment still are; reconnecting re-enables the source.", "quantifier": "all connection histories", "why_tests_cant": "unbounded histories", "anchors": ["src/helics/core/InputInfo.cpp: addData, addSource, removeSource, disconnectFederate"]}
{"id": "C15", "title": "Change-only inputs and publications report exactly the changes", "statement": "With only-update-on-change (only-transmit-on-change), an update is reported (transmitted) iff the new value differs from the one last current (last transmitted); two consecutive reported values always differ.", "quantifier": "all sequences of published values", "why_tests_cant": "unbounded value sequences", "anchors": ["src/helics/core/InputInfo.cpp: updateData, addData", "src/helics/core/PublicationInfo.cpp: CheckSetValue"]}
{"id": "C16", "title": "Minimum time gap is respected", "statement": "With a time restriction g on a publication (input), consecutive transmitted (accepted) values from one source are at least g apart.", "quantifier": "all publish time sequences, all g", "why_tests_cant": "unbounded sequences", "anchors": ["src/helics/core/PublicationInfo.cpp: CheckSetValue", "src/helics/core/InputInfo.cpp: addData"]}
{"id": "C17", "title": "Multi-source inputs choose the newest value with deterministic priority", "statement": "Reading a multi-source input returns the data of the source whose current value has the greatest time; ties go to the most recently declared priority source, then the first source.", "quantifier": "all numbers of sources, times and priority lists", "why_tests_cant": "universally quantified over tables", "anchors": ["src/helics/core/InputInfo.cpp: getData, priorityCheck"]}
{"id": "C18", "title": "Endpoint messages are delivered once, in time order, stable for ties", "statement": "An endpoint returns every message added to it exactly once, ordered by time, then original source name, then arrival order, and never a message with time later than the granted time.", "quantifier": "all interleavings of adds, time updates and receives", "why_tests_cant": "unbounded interleavings", "anchors": ["src/helics/core/EndpointInfo.cpp: addMessage, getMessage, updateTimeUpTo, updateTimeInclusive, msgSorter"]}
{"id": "C19", "title": "Available message counts match what can be received", "statement": "After a time update to t the number of available messages equals the number of queued messages with time <= t (< t for exclusive), and exactly that many receive calls succeed.", "quantifier": "all queue contents and times", "why_tests_cant": "all queues", "anchors": ["src/helics/core/EndpointInfo.cpp: availableMessages, queueSize, queueSizeUpTo, getMessage"]}
{"id": "C20", "title": "Wire encoding of commands round-trips", "statement": "Serializing any command and deserializing the bytes gives back the same command with every field intact (time requests carry no payload or strings), and the number of bytes used equals the predicted size.", "quantifier": "all commands: all field values, payloads and string lists within the format limits", "why_tests_cant": "infinite message space incl. boundary payload sizes", "anchors": ["src/helics/core/ActionMessage.cpp: toByteArray, fromByteArray, serializedByteCount, to_string, from_string"]}
{"id": "C21", "title": "Packet framing round-trips and rejects corrupted frames", "statement": "Packetizing and depacketizing gives back the command and consumes exactly the frame; a buffer with wrong lead byte, wrong tail or insufficient length is rejected and reported as zero bytes used.", "quantifier": "all commands and all byte strings", "why_tests_cant": "all byte strings", "anchors": ["src/helics/core/ActionMessage.cpp: packetize, depacketize"]}
{"id": "C22", "title": "Decoding never reads outside the received buffer", "statement": "For any byte sequence received from the network the decoder only reads bytes inside the buffer and always terminates, either producing a command or reporting it invalid.", "quantifier": "all byte strings of all lengths", "why_tests_cant": "adversarial inputs: every byte string", "anchors": ["src/helics/core/ActionMessage.cpp: fromByteArray, depacketize"]}
{"id": "C23", "title": "Messages decode identically across byte orders", "statement": "A command serialized on a machine of one endianness decodes on a machine of the other endianness to the same command.", "quantifier": "all commands, both endianness combinations", "why_tests_cant": "test machines all have one endianness", "anchors": ["src/helics/core/ActionMessage.cpp: toByteArray, fromByteArray, swap_bytes"]}
{"id": "C24", "title": "Published values round-trip through the binary value format", "statement": "Encoding a double, integer, complex, string, named point, vector or complex vector and decoding with the same type returns the identical value, and the type detected from the bytes is the type encoded.", "quantifier": "all values of each type up to the format's 32-bit length", "why_tests_cant": "infinite value space", "anchors": ["src/helics/application_api/ValueConverter.cpp: convertToBinary, convertFromBinary, detectType, addCodeAndSize, getDataSize"]}
{"id": "C25", "title": "Data buffers behave like byte strings", "statement": "Any sequence of assign/append/resize/push/pop/copy/move/swap/clear operations on payload buffers leaves each buffer with the bytes a plain string would have, independent of whether the storage is inline or heap, and two distinct buffers never share storage.", "quantifier": "all operation sequences and sizes", "why_tests_cant": "unbounded operation sequences across the inline/heap boundary", "anchors": ["src/helics/core/SmallBuffer.hpp: SmallBuffer"]}
{"id": "C26", "title": "Identifiers for distinct entities never collide", "statement": "The combined federate/interface handle key distinguishes any two distinct handles, and reserved internal federate ids generated for different brokers/slots are distinct from each other and classified as federates.", "quantifier": "all 32-bit ids", "why_tests_cant": "2^64 pairs", "anchors": ["src/helics/core/GlobalFederateId.hpp: GlobalHandle, getSpecialFederateId, isFederate, isBroker"]}
{"id": "C27", "title": "Interface names are unique per kind and lookups return the registered interface", "statement": "After any sequence of registrations and removals, looking up an interface by name and kind returns the interface registered under that name and not since removed, registering a duplicate name of the same kind fails, and handle ids remain stable.", "quantifier": "all registration/removal histories", "why_tests_cant": "unbounded histories", "anchors": ["src/helics/core/HandleManager.cpp: addHandle, removeHandle, getInterfaceHandle, findHandle, addSearchFields"]}
{"id": "C28", "title": "Aliases resolve to the aliased interface", "statement": "After an alias is declared between two names, lookups under either name give the same interface, regardless of whether the alias or the interface was declared first, and removing the interface makes both names unknown.", "quantifier": "all alias/registration orders", "why_tests_cant": "unbounded histories", "anchors": ["src/helics/core/HandleManager.cpp: addAlias, addAliasName, addFields, removeHandle"]}
{"id": "C29", "title": "Pending connections are matched exactly once the target appears", "statement": "A connection requested to a not-yet-known interface is returned to exactly the requesters when that name is registered, is reported as unresolved until then, and is forgotten when resolved or when the requester disconnects.", "quantifier": "all histories of unknown-target requests, registrations, disconnects", "why_tests_cant": "unbounded histories", "anchors": ["src/helics/core/UnknownHandleManager.cpp: addUnknown*, checkFor*, clear*, clearFederateUnknowns, hasUnknowns, hasNonOptionalUnknowns, hasRequiredUnknowns"]}
{"id": "C30", "title": "Option flags are independent bits", "statement": "Setting, clearing or toggling one message/interface flag changes the result of testing that flag and no other.", "quantifier": "all flag words and flag indices", "why_tests_cant": "all 16-bit words", "anchors": ["src/helics/core/flagOperations.hpp: setActionFlag, clearActionFlag, toggleActionFlag, checkActionFlag"]}
{"id": "C31", "title": "Interface options read back as set", "statement": "For inputs, publications and endpoints, reading an option after setting it returns the value set, and setting an option does not disturb unrelated options.", "quantifier": "all options and values and prior states", "why_tests_cant": "all combinations of prior state and option", "anchors": ["src/helics/core/InputInfo.cpp: setProperty, getProperty", "src/helics/core/PublicationInfo.cpp: setProperty, getProperty", "src/helics/core/EndpointInfo.cpp: setProperty, getProperty"]}
{"id": "C32", "title": "A silent connection is declared lost only after the timeout", "statement": "A core or broker is declared disconnected only if a ping has gone unanswered for more than the timeout; any reply before that resets the wait; and a connection silent past the timeout is always reported at the next tick.", "quantifier": "all schedules of ticks and ping replies with arbitrary clock values", "why_tests_cant": "all timing schedules", "anchors": ["src/helics/core/TimeoutMonitor.cpp: tick, pingReply, pingSub"]}
{"id": "C33", "title": "Timers fire at most once per arming and never after cancel", "statement": "A message scheduled on a timer is sent at most once, never before its expiration time, and not at all after the timer is cancelled, whatever callbacks the runtime delivers.", "quantifier": "all interleavings of add/update/cancel and timer callbacks", "why_tests_cant": "all callback schedules", "anchors": ["src/helics/core/MessageTimer.cpp: addTimer, updateTimer, cancelTimer, sendMessage, addTimeToTimer"]}
{"id": "C34", "title": "The log buffer keeps exactly the most recent messages", "statement": "After any sequence of log pushes and resizes the buffer holds the most recent messages in order, never more than its configured size.", "quantifier": "all push/resize sequences", "why_tests_cant": "unbounded histories", "anchors": ["src/helics/common/LogBuffer.cpp: push, resize, enable, process"]}
{"id": "C35", "title": "Filters transform exactly as configured", "statement": "A delay filter adds its delay to the message time and changes nothing else; a reroute filter changes only the destination (and only under its conditions); a clone filter delivers the original unchanged plus one copy per configured target; a firewall either passes or blocks.", "quantifier": "all messages and filter configurations", "why_tests_cant": "all messages", "anchors": ["src/helics/application_api/FilterOperations.cpp", "src/helics/application_api/MessageOperators.cpp"]}
{"id": "C36", "title": "A message in filter processing holds back time until it returns", "statement": "While a message sent for remote filtering is outstanding, the sending endpoint's core does not release time past the message's time; when the last outstanding message is returned the hold is removed.", "quantifier": "all interleavings of outgoing filter requests and returns", "why_tests_cant": "all interleavings", "anchors": ["src/helics/core/FilterFederate.cpp: generateProcessMarker, acceptProcessReturn, addTimeReturn, clearTimeReturn"]}
{"id": "C37", "title": "Federate API calls follow the documented mode order", "statement": "From the application API, a federate moves through startup, initializing, executing and finalized only along documented transitions; calls in a wrong mode raise an error and leave the state unchanged; after finalize no call changes it.", "quantifier": "all call sequences", "why_tests_cant": "unbounded call sequences including async pairs", "anchors": ["src/helics/application_api/Federate.cpp: enterInitializingMode, enterExecutingMode, requestTime, finalize, *Async, *Complete"]}
{"id": "C38", "title": "Priority commands overtake ordinary ones but per-class order is preserved", "statement": "Commands of a given class (priority / ordinary) are processed in the order received.", "quantifier": "all arrival sequences", "why_tests_cant": "unbounded sequences", "anchors": ["src/helics/core/BrokerBase.cpp: addActionMessage, queueProcessingLoop", "src/helics/core/ActionMessage.hpp: isPriorityCommand"]}
{"id": "C39", "title": "Bundled commands unpack to the same sequence", "statement": "Appending commands to a multi-command bundle and unpacking gives the same commands in the same order, at most 255 per bundle.", "quantifier": "all command lists", "why_tests_cant": "all lists", "anchors": ["src/helics/core/ActionMessage.cpp: appendMessage, setString, getString"]}
{"id": "C40", "title": "Commands sent over a stream arrive complete and in order", "statement": "However the network cuts the byte stream of packets into pieces, the receiver hands over exactly the commands sent, in order, each as soon as its packet is complete and none before.", "quantifier": "all command sequences and all ways of cutting the stream into pieces", "why_tests_cant": "unboundedly many cuts and sequences", "anchors": ["src/helics/network/tcp/TcpComms.cpp: dataReceive", "src/helics/core/ActionMessage.cpp: packetize, depacketize"]}
{"id": "C41", "title": "A broker that is in error never looks healthy again", "statement": "Once a broker or core has entered an error state no later state change brings it back to a non-error state, whatever the order of connect, error, terminate and disconnect events.", "quantifier": "all sequences of state changes", "why_tests_cant": "all sequences from every thread", "anchors": ["src/helics/core/BrokerBase.cpp: setBrokerState, transitionBrokerState"]}
{"id": "C42", "title": "A message object survives the conversion to a command and back", "statement": "Turning an endpoint message into a command and a command back into a message keeps data, time, flags, id and all four addresses; commands with fewer strings give messages with the missing addresses empty.", "quantifier": "all messages, all commands", "why_tests_cant": "all field values", "anchors": ["src/helics/core/ActionMessage.cpp: ActionMessage(unique_ptr<Message>), createMessageFromCommand"]}
{"id": "C43", "title": "Every active source filter is applied exactly once, in order", "statement": "A message sent from an endpoint with a chain of filters is delivered as the result of applying every active filter once in the order of the chain, wherever the filters live and whatever happens at the sending core while the message is away; if a filter drops it, it is not delivered.", "quantifier": "all chains mixing local and remote, cloning and non-cloning filters, all operators, all messages, all interleavings of other events", "why_tests_cant": "unbounded chains, arbitrary operators and all interleavings", "anchors": ["src/helics/core/FilterFederate.cpp: processMessage, executeFilter, processMessageFilter, processFilterReturn"]}
{"id": "C44", "title": "Registration gives every federate one id, and commands to it find it", "statement": "In a tree of brokers and cores, a successful registerFederate returns an id no other federate, broker or core of the federation has, for a name no other federate has; the id never changes; and from every broker and core the commands for a registered federate or a connected broker or core are forwarded hop by hop to it, in no more hops than up to the root and down again. Each registerFederate is answered at most once, and exactly once when no message is lost.", "quantifier": "all trees, all names (also equal ones), all orders of delivery, losses and refusals of registration messages and acknowledgements, without repeated node registrations", "why_tests_cant": "unbounded trees and all interleavings of registrations, losses and acknowledgements", "anchors": ["src/helics/core/CoreBroker.cpp: getRoute, brokerRegistration, fedRegistration, processPriorityCommand, transmitDelayedMessages, routeMessage", "src/helics/core/CommonCore.cpp: registerFederate, processPriorityCommand, routeMessage"]}
{"id": "C45", "title": "Initialization starts for everybody together", "statement": "A call of enterInitializingMode returns only when the limits of the root broker are met (minimum number of federates and brokers, required federates), and only when every federate which registered in time with a core that joined in time has called it too.", "quantifier": "all trees of brokers and cores, all limits, all interleavings of registrations, requests, priority and other commands, acknowledgements, delays and grants", "why_tests_cant": "unbounded trees and all interleavings of registrations and requests", "anchors": ["src/helics/core/CoreBroker.cpp: allInitReady, brokerRegistration, fedRegistration, processCommand CMD_INIT CMD_INIT_NOT_READY CMD_INIT_GRANT, executeInitializationOperations", "src/helics/core/CommonCore.cpp: enterInitializingMode, allInitReady, processInitRequest, processCoreConfigureCommands"]}
{"id": "C46", "title": "Finalize and the end of a federation", "statement": "A core or broker stops only when every federate below it has called finalize or was cut off by disconnect(). With --global_disconnect no call of finalize returns before every federate has called it; without it finalize returns whatever the others do. When all federates have called finalize, every core and broker stops; disconnect() on the root stops everything.", "quantifier": "all trees of brokers and cores, all distributions of federates, all interleavings of finalize calls, commands, acknowledgements, broadcasts, stop commands, timer ticks and disconnect() calls", "why_tests_cant": "unbounded trees and all interleavings of commands between them; absence of a hang is a statement about every schedule", "anchors": ["src/helics/core/CommonCore.cpp: finalize, processDisconnectCommand, checkAndProcessDisconnect, sendDisconnect, processDisconnect, allDisconnected", "src/helics/core/CoreBroker.cpp: processBrokerDisconnect, disconnectBroker, sendDisconnect, processCommand CMD_DISCONNECT_BROKER_ACK CMD_STOP CMD_BROADCAST_DISCONNECT, getAllConnectionState", "src/helics/core/FederateState.cpp: finalize, processActionMessage CMD_DISCONNECT", "src/helics/core/TimeCoordinatorProcessing.cpp"]}
{"id": "C47", "title": "Queries which collect answers from the whole federation", "statement": "A query such as federate_map, global_state, data_flow_graph or global_flush gets exactly one answer. While a core or broker does not answer, some child of it has not answered what it was asked and has not left; when the last of them answers or leaves the answer is given, with one entry for every child that answered and none else. An answer from the cache is given only while no child has changed its state since the map was completed. When a core disconnects all who wait are answered.", "quantifier": "all numbers of children, all kinds of queries, all interleavings of queries, answers (also useless ones), departures, registrations and state changes", "why_tests_cant": "answers come in any order, mixed with other queries, departures and registrations; that nobody waits for ever and that no answer is lost is a statement about every interleaving", "anchors": ["src/helics/common/JsonBuilder.cpp: generatePlaceHolder, addComponent, clearComponents, isCompleted, reset", "src/helics/core/CoreBroker.cpp: initializeMapBuilder, generateQueryAnswer, processLocalQuery, processQueryResponse, checkInFlightQueries, generateMapObjectCounter", "src/helics/core/CommonCore.cpp: initializeMapBuilder, coreQuery, processQueryCommand, processQueryResponse, checkInFlightQueriesForDisconnect, generateMapObjectCounter"]}
{"id": "C48", "title": "The global clock permits a time only after everybody concerned has answered", "statement": "With --timing=global the root broker permits federates to go on to a time only at the end of a round of questions: everyone whose next time was up to the asked time was asked, nothing was asked or permitted in between, no federate that was executing asked for a new time in between, and every participating federate which may act by the permitted time has sent a request with the number of the round since. The permitted time is not more than one tick beyond the next event of any federate which can be granted, and every federate which asked for a time up to it gets the permission. When all wait, the coordinator stays silent only if somebody it waits for has not answered. The execution is granted only when everyone waited for has asked for it, to all dependents at once, and it is granted as soon as the last one asks; after a federate leaves, the coordinator asks or permits something unless an answer is missing.", "quantifier": "all numbers of federates and all histories of messages which reach the root broker, including federates which join, leave or change their request in the middle of a round", "why_tests_cant": "the answers of a round come in any order and mix with new requests, answers to earlier rounds and departures", "anchors": ["src/helics/core/GlobalTimeCoordinator.cpp: findNextTriggerEvent, sendTimeUpdateRequest, updateTimeFactors, checkExecEntry, transmitTimingMessagesDownstream", "src/helics/core/BaseTimeCoordinator.cpp: processTimeMessage, addDependency, addDependent, removeDependency, disconnect", "src/helics/core/TimeDependencies.cpp: TimeData::processTime, checkSequenceCounter", "src/helics/core/CommonCore.cpp: connectFilterTiming", "src/helics/core/CoreBroker.cpp: 660-669 (federates joining the global clock)"]}
{"id": "C49", "title": "A published value reaches every subscribed input exactly once and in order", "statement": "Through any tree of cores and brokers, the values an input has received from a publication are at any moment a first part of the values published while it was subscribed (and the last value, if it subscribed late), in the order of publishing, each once; nothing else ever arrives as one of them. As long as the federate of the input has not ended, all of them have arrived when no value is under way any more, and however many are under way, serving the connections delivers them all: none gets stuck or goes round in circles. This does not depend on when other federates, cores and brokers join, on other publications and subscriptions, or on the bundling of several values into one command.", "quantifier": "all trees of cores and brokers, all histories of registering, subscribing, unsubscribing, publishing, leaving and options, and all orders in which the connections are served", "why_tests_cant": "the order in which connections are served, and the mix with registrations and other traffic, is unlimited", "anchors": ["src/helics/core/CommonCore.cpp: setValue, processCommandsForCore/routeMessage, CMD_ADD_SUBSCRIBER handling (4229-4252), sendToFederate paths 5467-5495", "src/helics/core/FederateState.cpp: processActionMessage CMD_ADD_SUBSCRIBER (1762-1788)", "src/helics/core/PublicationInfo.cpp", "src/helics/core/CoreBroker.cpp: routeMessage, 1462-1464", "src/helics/core/BrokerBase.cpp: commandProcessor", "src/helics/core/ActionMessage.cpp: appendMessage"]}
{"id": "C50", "title": "A message reaches the endpoint it is sent to, once and in order", "statement": "A message sent to a name, or from a targeted endpoint to its targets, is at any moment either on exactly one connection or has come to exactly one end; whatever a federate is handed was sent, with that source and data, to one of its endpoints or to the name it was registered under. Once the announcement of an endpoint's name is no longer under way (and serving the connections always gets it there), the messages from any one endpoint to it arrive in the order of sending, each once; all have arrived when none is under way, and serving the connections always gets them there. A message to a name nobody registers is handed to nobody, and its sender is warned unless it is optional.", "quantifier": "all trees of cores and brokers, all histories of registrations of cores, brokers, federates and endpoints and of sending, and all orders in which the connections are served", "why_tests_cant": "the order in which connections are served, and how registrations and messages overtake each other, is unlimited", "anchors": ["src/helics/core/CommonCore.cpp: registerEndpoint (1903-1928), sendTo, send, generateMessages (2164-2304), deliverMessage (2400-2440), registerInterface (3777-3863)", "src/helics/core/CoreBroker.cpp: fillMessageRouteInformation (297-310), CMD_SEND_MESSAGE (1420-1446), addEndpoint (2172-2204)", "src/helics/core/HandleManager.cpp"]}
{"id": "C51", "title": "A global error stops the federates it has to reach, a local one only its own", "statement": "Once no error is under way any more, a global error of a federate or core has stopped every federate below the broker that core is connected to (the whole federation when that is the root), a global error of a broker every federate below it, and a local error at a core with terminate_on_error every federate of the federation; processing the commands under way always gets the error to each of them, and a stopped federate stays stopped. Without terminate_on_error and without global errors, only federates which report an error themselves are in error.", "quantifier": "all trees of cores and brokers, all histories of errors and of federates which finish, all orders in which cores, brokers and federates process them", "why_tests_cant": "errors can be raised anywhere, several at once, in any order with the commands under way", "anchors": ["src/helics/core/CommonCore.cpp: globalError, localError (445-520), sendErrorToFederates (3423-3434), processLogAndErrorCommand (4549-4626)", "src/helics/core/CoreBroker.cpp: globalError (2556-2563), broadcast (2706-2714), processError (3278-3345)", "src/helics/core/BrokerBase.cpp: setErrorState (620-643)", "src/helics/core/FederateState.cpp: processQueue, error handling (1392-1425)"]}
{"id": "C52", "title": "A command reaches the federate it is sent to, once and in order", "statement": "The commands sent from a core to a federate's name in one mode (fast or ordered) arrive at the federate with that name, and at no other, in the order in which they were sent and each once; processing what is under way always completes this; a command for a name which nobody has is answered as unknown by the root. The federate's queue holds the commands in order of arrival, without those HELICS handles itself, and getCommand returns them in that order, skipping 'notify', each of which is answered to its sender.", "quantifier": "all trees of cores and brokers, all placements of federates, all histories of sendCommand, getCommand and waitCommand and all orders in which cores and brokers process the commands", "why_tests_cant": "commands pass any number of brokers, in any interleaving with others and with the calls which take them", "anchors": ["src/helics/core/CommonCore.cpp: sendCommand (3177-3203), CMD_SEND_COMMAND (3345-3370), CMD_SEND_COMMAND_ORDERED (3581-3606)", "src/helics/core/CoreBroker.cpp: processCommandInstruction (4560-4614)", "src/helics/core/FederateState.cpp: sendCommand (2552-2669), getCommand (2671-2684), waitCommand (2686-2700)"]}
{"id": "C53", "title": "A time grant hands a message federate exactly the due messages, each once and in order", "statement": "When a time is granted, at every endpoint of a message federate exactly the messages which are due become readable, none is left behind and none comes early. Each message is read once; per endpoint messages are read by time, then by original source, then as they came. hasMessage and pendingMessageCount agree with what can be read, and getMessage without an endpoint returns all messages of the first endpoint, then all of the second and so on.", "quantifier": "all numbers of endpoints, all histories of arriving messages, grants in any mode and reads in any order", "why_tests_cant": "messages wait at several endpoints with any times while one loop with a common count fetches the earliest of all", "anchors": ["src/helics/application_api/MessageFederateManager.cpp: updateTime (184-221), getMessage (157-182), hasMessage (105-114), pendingMessageCount (142-155)", "src/helics/core/FederateState.cpp: receiveAny (311-336), getQueueSize (287-294), fillEventVectorUpTo, fillEventVectorInclusive, fillEventVectorNextIteration (854-906)", "src/helics/core/EndpointInfo.cpp: getMessage, updateTimeUpTo, updateTimeInclusive"]}
{"id": "C54", "title": "With a minimum change set, receivers stay within it of what is published", "statement": "When a publication has a minimum change, a published value is sent exactly when it differs by more than that from the last value sent, so that what receivers see is always within the minimum change of what was published last; without one every value is sent. An input with a minimum change shows a new value, and reports an update, exactly when the new value differs by more than that from the one shown; without one it shows the newest value. An update is reported until the value has been read.", "quantifier": "all histories of published values of all types and changes of the minimum change; all histories of new values, reads and update checks of an input", "why_tests_cant": "small changes add up over a history of any length, and two layers (interface and federate manager) each keep an update flag which reads and checks clear differently", "anchors": ["src/helics/application_api/Publications.cpp: publish (70-336)", "src/helics/application_api/Publications.hpp: setMinimumChange (237-247), enableChangeDetection (252)", "src/helics/application_api/Inputs.cpp: checkUpdate (544-577), isUpdated (597-603), clearUpdate (613-617), getBytes (660-664), checkAndGetFedUpdate (801-806)", "src/helics/application_api/Inputs.hpp: getValue_impl (436-468), setMinimumChange (272-283)", "src/helics/application_api/helicsPrimaryTypes.cpp: changeDetected (20-172)", "src/helics/application_api/ValueFederateManager.cpp: getUpdateFromCore (256-268)"]}
{"id": "C55", "title": "An input with a reduction operation shows the operation applied to the newest value of every source", "statement": "When an input has several sources and a multi-input handling method, then after every grant it reads as that method applied to the newest value of each source which has sent one, each converted to the unit of the input: the greatest or least value, the sum, the average, the first minus the sum of the others, all elements in one vector in source order, texts joined, or the logical and/or. An update is reported until the value has been read; with a minimum change what is read is never further than that from the combined value.", "quantifier": "all numbers of sources, units, values, operations and input types; all histories of grants, reads and update checks", "why_tests_cant": "sources start sending at different times, with different types and units, and any subset may be new at a grant", "anchors": ["src/helics/application_api/Inputs.cpp: vectorDataProcess (411-542), maxOperation, minOperation, diffOperation, vectorizeOperation, vectorSum, vectorAvg, vectorDiff, sumOperation (127-403)", "src/helics/application_api/ValueFederateManager.cpp: getUpdateFromCore (256-268), updateTime (270-308)", "src/helics/application_api/helicsPrimaryTypes.cpp: valueConvert (1144-1225), changeDetected", "src/helics/application_api/helicsTypes.cpp: helicsBoolValue (658-707)"]}
{"id": "C56", "title": "A player publishes and sends what it was given, each once, in order and on time", "statement": "A player which runs to a stop time publishes every point and sends every message up to that time, each exactly once, in the order of time and iteration, and none before its time. When requests are granted exactly, values and messages go out exactly at their times, points at their iteration, and this holds over any number of consecutive runs. A run ends when every request is granted.", "quantifier": "all lists of points and messages, all grants the federation may give, all stop times and numbers of runs", "why_tests_cant": "points, iterations and messages interleave in any way, and the granted time may be later than the requested one", "anchors": ["src/helics/apps/Player.cpp: sendInformation (577-607), runTo (609-681), vComp, mComp (48-55), sortTags (512-532)", "src/helics/apps/Player.hpp: addPoint (139-162), ValueSetter, MessageHolder"]}
{"id": "C57", "title": "A source publishes each of its publications at its period, and at no other time", "statement": "A source federate which runs to one stop time after another publishes, for every publication linked to a generator, the value of that generator at start, start + period, start + 2 period, ... up to the latest stop time, each once, in order and nothing else, whatever the other publications and their periods; a start before zero gives one value before execution and then the schedule from time zero. A publication linked to a generator which does not exist stays silent. When grants come late no publication gets ahead of its schedule, and the next one falls on the schedule again. Every run ends.", "quantifier": "all lists of generators and publications, starts, positive periods, stop times and numbers of runs; for the never-ahead part all grants", "why_tests_cant": "periods and starts interleave in any way, and the number of publications and grants is unbounded", "anchors": ["src/helics/apps/Source.cpp: initialize (190-227), runTo (229-264), addSignalGenerator (295-310), runSource (365-380), runSourceLoop (382-401)", "src/helics/apps/Source.hpp: SourceObject (24-33)"]}
{"id": "C58", "title": "A recorder records every value and message it receives, once, in order, with its time and iteration", "statement": "A recorder which runs to one stop time after another records every value any of its subscriptions receives and every message any of its endpoints (and the clone endpoint) receives, each exactly once, in order, with the time at which it came; what came before execution is recorded at -1 and what came with time zero at 0. The first value of each subscription, and no other, is marked as the first. With iterations allowed, values carry the number of the iteration, and no two values of one subscription share time and iteration when runs begin with a new time step.", "quantifier": "all sequences of grants, new values, waiting messages, iteration results and stop times", "why_tests_cant": "updates of many subscriptions, iterations and messages interleave in any way over an unbounded number of grants and runs", "anchors": ["src/helics/apps/Recorder.cpp: initialize (348-363), captureForCurrentTime (391-470), runTo (473-536)", "src/helics/apps/Recorder.hpp: ValueCapture (127-139), ValueStats (142-148)"]}
{"id": "C59", "title": "A barrier set at the root broker holds for every federate, early or late, until it is moved or cleared", "statement": "After any sequence of setting, moving and clearing the time barrier at the root broker and of federates joining, every federate, whether it joined before or after, has been told exactly the barrier of the last call, and one which has got its messages is granted no time at or beyond it.", "quantifier": "all sequences of set, move, clear and join, and for the grants all histories of a federate", "why_tests_cant": "federates may join between any two calls, and the number of calls and federates is unbounded", "anchors": ["src/helics/core/CoreBroker.cpp: setTimeBarrier, clearTimeBarrier (2535-2554), generateTimeBarrier (909-929), federate registration (688-693), broadcast (2706-2714), barrier command instructions (4530-4546)"]}
