{"id": "C01", "title": "A connection delivers every accepted packet exactly once and in order", "statement": "For a Connection, the packets handed out by dequeue, dequeueUpTo and dequeueAll, in the order they are handed out, followed by what is still queued, are exactly the packets accepted by enqueue / enqueueOnThisThread / enqueueMultiple in the order they were accepted (with gap packets, when gap checking is on, inserted directly in front of the data packet that revealed the gap). Nothing is lost, duplicated or reordered, and an enqueue that is refused leaves the queue unchanged.", "quantifier": "every sequence of enqueue, dequeue, peek, dequeueAll and dequeueUpTo calls on one connection, every packet content, active or inactive port, gap checking on or off", "why_tests_cant": "The number of interleavings of producers' and consumers' calls is unbounded; a test fixes one history.", "anchors": ["core/opendaq/signal/src/connection_impl.cpp: ConnectionImpl::enqueueInternal, enqueueMultiple*, dequeue, dequeueAll, dequeueUpTo, peek"]}
{"id": "C02", "title": "The availability counters of a connection describe its queue", "statement": "getPacketCount, getAvailableSamples, getSamplesUntilNextEventPacket / DescriptorPacket / GapPacket, hasEventPacket and hasGapPacket always report what a direct scan of the queued packets would give.", "quantifier": "every history of calls on one connection", "why_tests_cant": "The counters are maintained incrementally by every mutator; one forgotten update in one branch shows only after a particular history.", "anchors": ["core/opendaq/signal/src/connection_impl.cpp: onPacketEnqueued, onPacketDequeued, countPackets, getSamplesUntilNextEventPacket, hasEventPacket, hasGapPacket"]}
{"id": "C03", "title": "A listener that drains its connection is always woken for the next packet", "statement": "If an input port uses the 'scheduler, only when queue was empty' notification method and its listener, when woken, empties the connection with any of the dequeue calls, then no packet can be enqueued to an empty queue without the listener being notified.", "quantifier": "every history of enqueues and drains on one connection", "why_tests_cant": "A lost wake-up needs one specific interleaving of drain and enqueue.", "anchors": ["core/opendaq/signal/src/connection_impl.cpp: queueEmpty, dequeue, dequeueAll, dequeueUpTo, enqueueInternal", "core/opendaq/signal/include/opendaq/input_port_impl.h: notifyPacketEnqueued"]}
{"id": "C04", "title": "Gap checking reports exactly the discontinuities of the domain", "statement": "With gap checking requested and an implicit linear domain, a gap packet is delivered in front of a data packet if and only if the packet's domain offset differs from the previous packet's offset plus its sample count times the rule delta; the reported difference is that difference; the first data packet after a descriptor change never yields a gap.", "quantifier": "every sequence of descriptor events and data packets", "why_tests_cant": "Needs all sequences of descriptor changes and packets.", "anchors": ["core/opendaq/signal/src/connection_impl.cpp: checkForGaps, initGapCheck, doGapCheck, beginGapCheck"]}
{"id": "C05", "title": "Live packets of a packet buffer never overlap", "statement": "At any time the memory regions of all packets created from a PacketBuffer and not yet released lie inside the buffer and are pairwise disjoint, whatever the order in which packets are created and released (including release from other threads in any order), and a newly created packet never reuses memory of a live packet.", "quantifier": "every buffer size and sample size, every interleaving of createPacket and packet releases in any order", "why_tests_cant": "Out-of-order release with wrap-around has unboundedly many schedules; overlap corrupts data silently.", "anchors": ["core/opendaq/utility/src/packet_buffer_impl.cpp: PacketBufferImpl::Write, Read, CleanOosPackets, createPacket, resize"]}
{"id": "C06", "title": "A packet buffer does not leak and its availability report is truthful", "statement": "When packets are released in creation order all memory is reclaimed (once no packet is live the full buffer can be allocated again), and createPacket of n samples succeeds exactly when n does not exceed the count reported by getMaxAvailableContinousSampleCount.", "quantifier": "every buffer size, every sequence of creations and releases", "why_tests_cant": "Accounting errors depend on the position of read/write pointers and the wrap-around remainder.", "anchors": ["core/opendaq/utility/src/packet_buffer_impl.cpp: Read, Write, getMaxAvailableContinousSampleCount, getAvailableSampleCount"]}
{"id": "C07", "title": "Implicit linear domain values are consistent however they are read", "statement": "For a packet with a linear data rule, element i of getData equals delta*i + start + packet offset (in the sample type's arithmetic), and getValueByIndex(i) and getLastValue agree with element i and with the last element of getData.", "quantifier": "all deltas, starts, offsets, sample counts, indexes and integer sample types (with wrap-around)", "why_tests_cant": "Numeric ranges and sample types are unbounded.", "anchors": ["core/opendaq/signal/include/opendaq/data_rule_calc.h: calculateLinearRule, calculateLinearSample, calculateLastLinearSample"]}
{"id": "C08", "title": "Constant-rule values are consistent however they are read", "statement": "For a packet with a constant data rule and a list of (position, value) changes, getData holds at index i the value of the last change at a position not after i (or the initial value), and reading a single sample or the last sample gives the same value as the full array.", "quantifier": "all initial values, change lists, sample counts and indexes", "why_tests_cant": "Off-by-one behaviour at change positions needs every (positions, index) combination.", "anchors": ["core/opendaq/signal/include/opendaq/data_rule_calc.h: calculateConstantRule, calculateConstantSample, calculateLastConstantSample"]}
{"id": "C09", "title": "Effective permissions are the inherited permissions overridden by the local ones", "statement": "After any sequence of setPermissions and re-parenting calls on a tree of components, the permissions in force at a node are the result of applying, from the nearest ancestor that does not inherit down to the node, each node's own permission settings; a change at an ancestor is visible at every inheriting descendant at once.", "quantifier": "every component tree, every group, every sequence of permission changes and attachments", "why_tests_cant": "Trees and histories are unbounded.", "anchors": ["core/coreobjects/src/permission_manager_impl.cpp: setPermissions, setParent, updateInheritedPermissions", "core/coreobjects/src/permissions_builder_impl.cpp: assign, allow, deny, extend"]}
{"id": "C10", "title": "Denial wins and nothing is allowed by default", "statement": "isAuthorized(user, permission) is true exactly when at least one of the user's groups is allowed the permission and none of the user's groups is denied it; no builder call sequence makes a permission both allowed and denied for one group.", "quantifier": "every user, group set, permission mask and builder call sequence", "why_tests_cant": "All group combinations and all builder sequences.", "anchors": ["core/coreobjects/src/permission_manager_impl.cpp: isAuthorized", "core/coreobjects/src/permissions_builder_impl.cpp"]}
{"id": "C11", "title": "A device lock is held by at most one user and only they (or force) can release it", "statement": "Once a user holds the device lock, no other user's lock or unlock call changes who holds it until that user unlocks or somebody force-unlocks; an anonymous lock can be released by anyone; failing calls change nothing; saving and restoring the lock keeps the holder.", "quantifier": "every sequence of lock, unlock, forceUnlock and save/restore calls by any users", "why_tests_cant": "All histories with any number of users.", "anchors": ["core/opendaq/device/src/user_lock_impl.cpp: UserLockImpl::lock, unlock, forceUnlock, isLocked, serialize, Deserialize"]}
{"id": "C12", "title": "Configuration protocol packets survive encoding and decoding", "statement": "Every packet type of the configuration protocol, built by its factory and re-read from the bytes it produces, yields the same type, id and payload (version lists, upgrade results, JSON payloads), and bytes of a wrong shape are refused with an error instead of being read past their end.", "quantifier": "all ids, versions, payload strings and byte arrays", "why_tests_cant": "Byte strings and payload lengths are unbounded.", "anchors": ["shared/libraries/config_protocol/src/config_protocol.cpp: PacketBuffer"]}
{"id": "C13", "title": "Native transport framing survives encoding and decoding and never reads out of bounds", "statement": "A transport header written for a payload type and size is read back to the same pair for every admissible size, and oversized payloads are refused; every control message (signal available / unavailable, subscribe, acknowledge) decodes to the values that were encoded, and on arbitrary received bytes the decoder either reports an error or reads only inside the received payload.", "quantifier": "all payload types, sizes, ids and strings, and all received byte strings", "why_tests_cant": "Hostile input bytes are unbounded.", "anchors": ["shared/libraries/native_streaming_protocol/src/native_streaming_protocol_types.cpp: TransportHeader", "shared/libraries/native_streaming_protocol/src/base_session_handler.cpp: copyData, getStringFromData, readSignalAvailable, sendSignalAvailable"]}
{"id": "C14", "title": "No remote call changes a device without the required rights", "statement": "A configuration-protocol call that changes the state of the device is executed only if the client is not view-only, the target is not on a locked device, and the client's user has read and write (or execute) permission on the affected object; otherwise it fails and nothing changes.", "quantifier": "every RPC name, client connection type, lock state, user and permission assignment, every call sequence", "why_tests_cant": "Every handler must perform every check; tests sample handlers.", "anchors": ["shared/libraries/config_protocol/src/config_protocol_server.cpp", "shared/libraries/config_protocol/include/config_protocol/config_server_component.h, config_server_device.h, config_server_input_port.h, config_server_access_control.h"]}
{"id": "C15", "title": "Core events reach the client in order, none lost, and before the reply of the call that caused them is final", "statement": "The configuration-protocol server sends every core event raised on the device to the client exactly once and in the order raised, whether raised inside or outside of remote calls and however calls nest.", "quantifier": "every interleaving of remote calls and core events, every negotiated protocol version", "why_tests_cant": "Packing of events while a call is active depends on schedules.", "anchors": ["shared/libraries/config_protocol/src/config_protocol_server.cpp: processPacketAndGetReply, coreEventCallback, sendNotification"]}
{"id": "C16", "title": "A device signal is subscribed exactly while somebody listens", "statement": "The native streaming server asks for a signal's data when its first client subscribes and stops when its last subscriber unsubscribes or disconnects: the start and stop requests for one signal strictly alternate, starting with start, and a signal is started exactly while it has a subscriber.", "quantifier": "every sequence of signal registrations, client connections, disconnections, subscribe and unsubscribe requests", "why_tests_cant": "Unbounded numbers of clients and histories.", "anchors": ["shared/libraries/native_streaming_protocol/src/streaming_manager.cpp: registerSignalSubscriber, removeSignalSubscriber, unregisterClient, removeSignal"]}
{"id": "C17", "title": "Every streaming subscriber gets every packet once, descriptor first", "statement": "Each packet sent for a signal is passed exactly once to each client subscribed to it at that moment and to nobody else; a client that subscribes later first gets the signal's latest descriptors before any later packet; signal numeric ids are never reused.", "quantifier": "every history of registrations, subscriptions and packets", "why_tests_cant": "Unbounded histories.", "anchors": ["shared/libraries/native_streaming_protocol/src/streaming_manager.cpp: registerSignal, registerSignalSubscriber, sendPacketToSubscribers, sendDaqPacket"]}
{"id": "C18", "title": "Packet streaming reproduces the server's packets at the client", "statement": "For every sequence of event and data packets given to a packet streaming server, a client that receives all produced buffers in order outputs packets with the same signal ids, descriptors, offsets, sample counts, data and domain packets, and in the same order for packets whose domain packets are available.", "quantifier": "every sequence of packets over any number of signals and domain packets, any sharing of domain packets", "why_tests_cant": "Needs every sharing and release pattern.", "anchors": ["shared/libraries/packet_streaming/src/packet_streaming_server.cpp: PacketStreamingServer::addDaqPacket", "shared/libraries/packet_streaming/src/packet_streaming_client.cpp: PacketStreamingClient::addPacketBuffer, getNextDaqPacket"]}
{"id": "C19", "title": "Packet streaming does not retain packets that can no longer be referenced", "statement": "When the server's copies of a data packet are destroyed, the client eventually stops holding the packet: every packet the client keeps for later reference will either be released by a later buffer or still be referenced by the server.", "quantifier": "every order of sending, waiting for domain packets and releasing", "why_tests_cant": "A leak needs one particular order of packet, domain packet and release.", "anchors": ["shared/libraries/packet_streaming/src/packet_streaming_client.cpp: referencedPackets, addReleasePacketBuffer, addAlreadySentPacketBuffer"]}
{"id": "C20", "title": "Batching packet buffers for transmission preserves the byte stream", "statement": "Splitting queued packet buffers into cache groups and copying them into linear buffers transmits exactly the same headers and payloads in the same order as sending them one by one, within the configured cache size and group limits, and the internal consistency assertions of the batching never fire.", "quantifier": "every queue of packet buffers, every cache-size setting", "why_tests_cant": "All queue shapes and boundary sizes.", "anchors": ["shared/libraries/packet_streaming/src/packet_streaming_server.cpp: PacketStreamingServer::getNextPacketBuffer / queuePacketBuffer, cacheable groups", "shared/libraries/native_streaming_protocol/src/streaming_manager.cpp: getStreamingWriteTasks, cachePacketsToLinearBuffer"]}
{"id": "C21", "title": "The stream reader neither loses nor repeats samples", "statement": "The samples returned by successive read / readWithDomain / skipSamples calls of a stream reader, concatenated, are a prefix of the concatenated samples of the packets received, in order, and each returned event is the next event in the stream; values and domain stay aligned.", "quantifier": "every packetisation of the stream, every sequence of read sizes, events anywhere", "why_tests_cant": "All packetisations times all read-size sequences.", "anchors": ["core/opendaq/reader/src/stream_reader_impl.cpp: readPackets, readPacketData, skipSamples, getAvailableCount"]}
{"id": "C22", "title": "The tail reader returns the most recent samples", "statement": "Between events, reading n samples from a tail reader with history size h returns the last min(n, available) samples received, in order, and at least the last h samples received are always available.", "quantifier": "every packetisation, every history size and read size", "why_tests_cant": "All packetisations and sizes.", "anchors": ["core/opendaq/reader/src/tail_reader_impl.cpp: readData, readPacket, packetReceived"]}
{"id": "C23", "title": "The block reader returns consecutive (overlapping) blocks", "statement": "Block k returned by a block reader with block size b and overlap o percent is the received samples from k*(b - overlap) to k*(b - overlap)+b, in order, without loss; with no overlap blocks are disjoint and contiguous.", "quantifier": "every packetisation, block size, overlap below 100 %, and sequence of read counts", "why_tests_cant": "All packetisations times block sizes.", "anchors": ["core/opendaq/reader/src/block_reader_impl.cpp: readPackets, readPacketData, rewindQueue, trimQueue, calculateBlockCount"]}
{"id": "C24", "title": "Connecting signals can never create a cycle of function blocks", "statement": "Starting from unconnected function blocks, no sequence of input port connect, disconnect and re-connect calls yields a cyclic graph; connect reports a cyclic reference exactly when the new edge would close a cycle, and a refused connect leaves the port as it was.", "quantifier": "every finite graph of function blocks, ports and signals and every sequence of calls", "why_tests_cant": "Graphs are unbounded.", "anchors": ["core/opendaq/signal/src/cyclic_ref_check.cpp", "core/opendaq/signal/include/opendaq/input_port_impl.h: connectInternal"]}
{"id": "C25", "title": "A consumer always knows the descriptor of the data it gets", "statement": "The first packet on every new connection is a descriptor-changed event carrying the signal's current value and domain descriptors, and at every data packet the most recent descriptor event on that connection carries the descriptors that were current when the packet was sent.", "quantifier": "every history of connecting, disconnecting, descriptor changes, domain signal changes, (de)activation and sends", "why_tests_cant": "All histories of changes on the value and the domain signal.", "anchors": ["core/opendaq/signal/include/opendaq/signal_impl.h: setDescriptor, setDomainSignal, listenerConnectedInternal, sendPacket, sendPackets"]}
{"id": "C26", "title": "A component is active exactly when it and all its ancestors are", "statement": "getActive of a component is true exactly when its own and every ancestor's locally set activity is true, after any sequence of setActive calls on a tree, and descendants are updated before setActive returns.", "quantifier": "every component tree, every sequence of setActive, add and remove calls", "why_tests_cant": "All trees and histories.", "anchors": ["core/opendaq/component/include/opendaq/component_impl.h: setActive, setParentActive, updateActive", "core/opendaq/component/include/opendaq/folder_impl.h: notifyActiveChanged, addItem"]}
{"id": "C27", "title": "Local ids in a folder are unique and lookups are exact", "statement": "A folder never contains two items with the same local id; getItem finds exactly the item added under that id and not removed since; items are listed in insertion order.", "quantifier": "every sequence of add, remove and clear calls", "why_tests_cant": "All histories.", "anchors": ["core/opendaq/component/include/opendaq/folder_impl.h: addItem, addItemInternal, removeItem, removeItemWithLocalId, getItem, clear"]}
{"id": "C28", "title": "Property reads return the last accepted write", "statement": "getPropertyValue returns the value of the last accepted setPropertyValue since the last clear, or the default value if there is none; read-only, frozen, ill-typed or invalid writes are refused and change nothing; the value stored for a property with limits and a validator always lies within the limits and satisfies the validator.", "quantifier": "every property set, every sequence of set, clear, freeze and get calls, every coercer and validator", "why_tests_cant": "All histories and all user-supplied coercers and validators.", "anchors": ["core/coreobjects/include/coreobjects/property_object_impl.h: setPropertyValueInternal, getPropertyValueInternal, clearPropertyValueInternal, coercePropertyWrite, validatePropertyWrite, coerceMinMax"]}
{"id": "C29", "title": "A batch update applies all its writes at its end, in order, or none of its reads see it before", "statement": "Between beginUpdate and the matching endUpdate, reads return the values from before the batch; at the outermost endUpdate the object holds, for each property, the last value written in the batch; nested begin/end pairs act as one batch.", "quantifier": "every sequence of nested batches, sets and clears", "why_tests_cant": "All histories and nesting depths.", "anchors": ["core/coreobjects/include/coreobjects/property_object_impl.h: beginUpdate, endUpdate, setUpdating, applyUpdate, endApplyUpdate"]}
{"id": "C30", "title": "A listener changing the property it is told about cannot corrupt it or loop", "statement": "When an onPropertyValueWrite listener writes the same property again, the value finally stored is the listener's last value, the listener is not called endlessly for an unchanged value, and afterwards the property can be written as before, also if the listener failed.", "quantifier": "every listener behaviour and nesting depth", "why_tests_cant": "Listeners are arbitrary code.", "anchors": ["core/coreobjects/include/coreobjects/property_object_utils.h: PropertyUpdateStack", "core/coreobjects/include/coreobjects/property_object_impl.h: setPropertyValueInternal, callPropertyValueWrite"]}
{"id": "C31", "title": "Ratios behave as rational numbers", "statement": "simplify yields a ratio equal in value with coprime numerator and denominator and positive denominator; equals holds exactly for equal rational values and agrees with the hash; a zero denominator is refused.", "quantifier": "all 64-bit numerators and denominators, negative ones included", "why_tests_cant": "Numeric range.", "anchors": ["core/coretypes/src/ratio_impl.cpp: RatioImpl"]}
{"id": "C32", "title": "Events call each subscribed, unmuted handler exactly once in subscription order", "statement": "Triggering an event calls every handler added and not removed since, that is not muted, exactly once and in the order of addition; handlers added or removed while the event is being triggered do not disturb the ongoing trigger.", "quantifier": "every sequence of add, remove, mute, unmute and trigger calls, handlers that themselves change the event", "why_tests_cant": "Handlers are arbitrary code; histories unbounded.", "anchors": ["core/coretypes/src/event_impl.cpp: EventImpl"]}
{"id": "C33", "title": "The type manager never holds two types of one name and never changes a type under a name", "statement": "After any sequence of addType and removeType calls a name maps to at most one type, an accepted type stays retrievable unchanged until it is removed, adding a different type under a used name fails, and built-in or protected names are refused.", "quantifier": "every sequence of calls, every type name", "why_tests_cant": "All histories.", "anchors": ["core/coretypes/src/type_manager_impl.cpp: TypeManagerImpl"]}
{"id": "C34", "title": "The main-thread loop runs every scheduled work exactly as long as it asks to be repeated", "statement": "Every one-shot work scheduled on the main loop before it is stopped is executed exactly once, in scheduling order; a repetitive work is executed in every iteration until it asks to stop; works scheduled during an iteration run in the next one.", "quantifier": "every sequence of scheduling calls, made before, between and during iterations, by works that schedule further works", "why_tests_cant": "Work items are arbitrary code; schedules unbounded.", "anchors": ["core/opendaq/scheduler/src/scheduler_impl.cpp: MainThreadLoop"]}
{"id": "C35", "title": "Client-side subscriptions of streamed signals are counted exactly", "statement": "A streaming client requests a signal from the server when the first consumer subscribes and cancels it when the last one unsubscribes, across signals becoming unavailable and available again and across reconnections; a signal requested by nobody is never left subscribed.", "quantifier": "every history of subscribe, unsubscribe, availability changes and reconnections", "why_tests_cant": "All histories.", "anchors": ["core/opendaq/streaming/include/opendaq/streaming_impl.h: doSubscribeSignal, doUnsubscribeSignal, remapAvailableSignal, remapUnavailableSignal, completeReconnection"]}
{"id": "C36", "title": "Tags form a set, and search filters select by them exactly", "statement": "The tags of a component are a duplicate-free collection equal to those added or set and not removed since; a tag query and the search filters built from required tags, excluded tags, visibility, interface and local id accept exactly the components their description says, for every nesting of and / or / not.", "quantifier": "every history of tag changes, every tag expression, every filter tree", "why_tests_cant": "All expressions and histories.", "anchors": ["core/opendaq/component/include/opendaq/tags_impl.h", "core/opendaq/component/src/search_filter_impl.cpp"]}
{"id": "C37", "title": "Component ids and relative paths resolve consistently", "statement": "The global id of a component is the sequence of local ids from the root joined by '/'; splitting a relative path and resolving it step by step finds exactly the component with that path; a component is reported nested in another exactly when the other is its proper ancestor.", "quantifier": "every tree with admissible local ids, every path", "why_tests_cant": "All trees and strings.", "anchors": ["core/opendaq/utility/include/opendaq/ids_parser.h: IdsParser", "core/opendaq/component/include/opendaq/component_impl.h: findComponent"]}
{"id": "C38", "title": "Single values of explicit packets equal the elements of their data", "statement": "For a packet with explicit data, with or without post-scaling and reference domain offset, reading value i (or the last value) gives element i (or the last element) of the packet's data, and an index at or past the sample count is refused.", "quantifier": "all packets, scalings, offsets and indexes", "why_tests_cant": "All combinations of scaling, offset, length and index.", "anchors": ["core/opendaq/signal/include/opendaq/data_packet_impl.h: getData, getRawValueByIndex, getValueByIndex, getLastValue"]}
{"id": "C39", "title": "A streaming client's list of available signals is the server's", "statement": "A client that asked for streaming has been told, counting availability and unavailability messages since it asked, exactly the signals the server currently offers, each once and with the number the server uses in that signal's packets.", "quantifier": "every history of signals appearing and disappearing and clients connecting, subscribing and disconnecting", "why_tests_cant": "All histories and numbers of clients and signals.", "anchors": ["shared/libraries/native_streaming_protocol/src/native_streaming_server_handler.cpp: addSignal, removeComponentSignals, handleStreamingInit", "shared/libraries/native_streaming_protocol/src/streaming_manager.cpp: registerSignal, removeSignal"]}
{"id": "C40", "title": "Streaming settings reach the packet server they describe", "statement": "The server's cacheable payload size setting is the payload size up to which its packet servers cache, and its packet release threshold setting is the number of released packets they collect before announcing them, for every client.", "quantifier": "every pair of settings, every history of connections", "why_tests_cant": "All setting values and all clients of all histories.", "anchors": ["shared/libraries/native_streaming_protocol/src/native_streaming_server_handler.cpp: handleStreamingInit", "shared/libraries/native_streaming_protocol/src/streaming_manager.cpp: registerClient"]}
{"id": "C41", "title": "A property object class offers its own properties and those of its ancestors", "statement": "Looking up a property on a class finds its own definition or else that of the nearest ancestor with one, hasProperty agrees, the property list contains each offered property exactly once, in the custom order where there is one, and every lookup ends.", "quantifier": "every set of registered classes reachable by registering and removing types, every class, every property name", "why_tests_cant": "All class hierarchies and registration histories.", "anchors": ["core/coreobjects/src/property_object_class_impl.cpp: getProperty, hasProperty, getProperties, getInheritedProperties, getWithCustomOrder", "core/coretypes/src/type_manager_impl.cpp: addType, removeType"]}
{"id": "C42", "title": "Expression strings mean what the documented grammar says", "statement": "Every text written in the documented expression grammar, with any white space and any case of the keywords, is accepted and understood as the one expression the precedence rules give it; every other text is refused; parsing ends on every input.", "quantifier": "every text", "why_tests_cant": "All texts; ambiguity and termination are claims about the whole grammar.", "anchors": ["core/coreobjects/src/eval_value_lexer.cpp", "core/coreobjects/src/eval_value_parser.cpp", "core/coreobjects/src/eval_value_token.cpp"]}
{"id": "C43", "title": "The value of an expression is the mathematical one", "statement": "The result of an integer or logic expression over properties or named conditions is the value of the mathematical expression it denotes, list arithmetic is element by element, equality is symmetric, and an expression without a value is reported as an error.", "quantifier": "every expression, every value of the references", "why_tests_cant": "All expression trees and all values.", "anchors": ["core/coreobjects/include/coreobjects/eval_nodes.h", "core/coreobjects/src/eval_value_impl.cpp", "core/coretypes/include/coretypes/objectptr.h: binaryOp"]}
{"id": "C44", "title": "A client that follows the change events of an object holds the object's values", "statement": "Applying the core events of an object, in order, to a copy of its values gives at every moment outside of a call the values getPropertyValue returns on the object.", "quantifier": "every history of set, clear, batch, freeze calls and every listener", "why_tests_cant": "All histories and all listener behaviours.", "anchors": ["core/coreobjects/include/coreobjects/property_object_impl.h: triggerCoreEventInternal, setPropertyValueInternal, clearPropertyValueInternal, endApplyUpdate", "shared/libraries/config_protocol/include/config_protocol/config_client_property_object_impl.h: propertyValueChanged, propertyObjectUpdateEnd"]}
{"id": "C45", "title": "The last value of a signal follows its packets", "statement": "getLastValue returns the last sample of the last packet with samples that the active, public, value-keeping signal was given, or the value set by hand after it; making the signal non-public or turning the keeping off forgets it.", "quantifier": "every history of sends, batches, activity and visibility changes and values set by hand", "why_tests_cant": "All histories of interacting flags.", "anchors": ["core/opendaq/signal/include/opendaq/signal_impl.h: checkKeepLastPacket, setKeepLastPacket, setLastValue, keepLastPacketAndEnqueueMultiple"]}
{"id": "C46", "title": "An object lives exactly as long as it is referenced", "statement": "An object is destroyed exactly once, after the last reference to it is released and never before; weak references do not keep it; a weak reference yields the object while somebody holds it, and once it reads as expired nobody ever gets the object again; nothing is used after it was given back.", "quantifier": "every number of references, weak references and threads, and every interleaving of their atomic operations", "why_tests_cant": "All interleavings of a lock-free protocol with two counters.", "anchors": ["core/coretypes/include/coretypes/intfs.h: ObjInstanceSupportsWeakRef, RefCount, internalAddRef, releaseWeakRefOnException", "core/coretypes/include/coretypes/weakref_impl.h: getRefAs, ~WeakRefImpl", "core/coretypes/include/coretypes/weakrefobj.h: getWeakRef", "core/coretypes/include/coretypes/impl.h: createObject"]}
{"id": "C47", "title": "Packets created in bulk do not share memory and the memory lives as long as any of them", "statement": "The objects and data of packets created together lie inside the one allocation made for them and do not overlap, at the requested alignment; the allocation is given back exactly once, after the last reference to any of the packets, their domain packets and offsets is released, by whichever thread.", "quantifier": "every number of packets, sample counts, sizes, alignments, and every interleaving of references taken and released", "why_tests_cant": "All sizes and all schedules.", "anchors": ["core/opendaq/signal/src/bulk_data_packet.cpp: daqBulkCreateDataPackets, BulkImpl, BulkDestruct, alignTo"]}
{"id": "C48", "title": "What is serialized as JSON can be deserialized, and is the same object", "statement": "Serializing an object made of core types (numbers, strings, lists, dictionaries, ratios, complex numbers, enumerations, structures, nested in any way) and deserializing the text gives an equal object and leaves the registered types unchanged. Deserializing any other text returns a well-formed object or an error, never loses a registered type, and what it returned can be written and read again.", "quantifier": "all objects, all serializer versions, all sets of registered types; all JSON texts for the second part", "why_tests_cant": "The objects nest to any depth and share types and ids; malformed and foreign texts are unlimited in number.", "anchors": ["core/coretypes/src/json_serializer_impl.cpp", "core/coretypes/src/json_deserializer_impl.cpp", "core/coretypes/src/json_serialized_object.cpp", "core/coretypes/src/json_serialized_list.cpp", "core/corecontainers/src/listobject_impl.cpp (serialize, deserializeList)", "core/corecontainers/src/dictobject_impl.cpp (serialize, deserializeDict)", "core/coretypes/include/coretypes/struct_impl.h", "core/coretypes/src/enumeration_impl.cpp", "core/coretypes/src/intfid.cpp"]}
{"id": "C49", "title": "A multi reader hands out the same span of time of all its signals", "statement": "Reading several signals through a multi reader returns consecutive pieces: of every signal the samples of the same span of time, no sample twice and none left out between two events, beginning at a common start that no signal begins after. What getAvailableCount reports can be read at once. Samples are written only to the buffers of the call, and every call returns.", "quantifier": "all sets of signals with their dividers, all sequences of packets arriving between and during the calls, all sequences of read, readWithDomain, skipSamples and getAvailableCount calls", "why_tests_cant": "Packets of different signals interleave with one another, with events and with waiting calls in unlimited ways.", "anchors": ["core/opendaq/reader/src/multi_reader_impl.cpp (read, readWithDomain, skipSamples, getAvailableCount, synchronize, readAndSynchronize, packetReceived)", "core/opendaq/reader/src/signal_reader.cpp", "core/opendaq/reader/src/typed_reader.cpp (getOffsetToDataLinear)"]}
{"id": "C50", "title": "A saved configuration brings back the function blocks and their connections", "statement": "Loading a saved configuration into a device with the same fixed components makes it the same as the one that was saved: the same function blocks, nested as they were, and every input port connected to the same signal, whatever function blocks were there before. What cannot be brought back because its type is missing does not hinder the rest.", "quantifier": "all trees of components with all connections among them that do not run in circles, in any nesting and order, all devices they are loaded into, all function blocks whose ports and signals depend on what is connected", "why_tests_cant": "Connections are restored by recursion through the tree in an order that depends on which block feeds which; tests try a few trees.", "anchors": ["core/opendaq/component/include/opendaq/component_update_context_impl.h (getSignal, resolveSignalDependency)", "core/opendaq/functionblock/include/opendaq/function_block_impl.h (updateObject, onUpdatableUpdateEnd)", "core/opendaq/signal/include/opendaq/signal_container_impl.h (updateObject, updateFunctionBlock)", "core/opendaq/signal/include/opendaq/input_port_impl.h (onUpdatableUpdateEnd, serializeForUpdate)", "core/opendaq/device/include/opendaq/device_impl.h (saveConfiguration, loadConfiguration)"]}
{"id": "C51", "title": "Loading a configuration does with each device what its update mode says", "statement": "Loading a configuration treats every saved device as the options of the user say: a device to be loaded is updated or added, one to be only updated is never added, a skipped one is left as it is, a removed one is gone, and one that is remapped is replaced by the new device, which gets its settings and its connections. Other devices stay unless the user wants unused devices removed.", "quantifier": "all trees of devices, all saved configurations, all assignments of modes, all devices that can or cannot be reached, with and without removal of unused devices", "why_tests_cant": "The modes act on one another: a device can be replaced by one that is already connected, that is itself replaced, or that is named elsewhere in the file; tests try a few combinations on one tree.", "anchors": ["core/opendaq/device/include/opendaq/device_impl.h (updateObject, updateDevice, removeRemappedDevices, findConnectedDeviceForRemap, removeDeviceIfNotStatic)", "core/opendaq/component/include/opendaq/component_update_context_impl.h (populateDeviceUpdateOptionsMapping, addDeviceRemapping, remapDeviceLocalIds)", "core/opendaq/utility/include/opendaq/device_update_options.h (DeviceUpdateMode)"]}
{"id": "C52", "title": "Signals of the client at the device's input ports", "statement": "A client can connect its own signals to input ports of a device. At any time when nothing is on its way, the device has exactly the signals that some port needs, that is the connected signals and their domain signals, each once and with its domain; each port of the device is connected to the signal the client's user sees there; the client holds and reads exactly these signals; and a packet of a signal reaches the ports connected to it, once each, and no others. When all is disconnected nothing is left.", "quantifier": "all histories of connects, replacements and disconnects by the client, disconnects by the device, and changes of domain signals, for any number of signals and ports, with and without reading by the client", "why_tests_cant": "Domain signals are shared by reference counts kept at both ends while messages cross; what goes wrong depends on which signals share a domain, on which ports are left and on the order of messages. Tests connect one or two signals once.", "anchors": ["shared/libraries/config_protocol/src/config_protocol_streaming_producer.cpp (registerOrUpdateSignal, addConnection, removeConnection, addStreamingTrigger, removeStreamingTrigger)", "shared/libraries/config_protocol/src/config_protocol_streaming_consumer.cpp (getOrAddExternalSignal, removeExternalSignals, processClientToServerStreamingPacket)", "shared/libraries/config_protocol/src/config_protocol_client.cpp (connectExternalSignalToServerInputPort, disconnectExternalSignalFromServerInputPort)", "shared/libraries/config_protocol/include/config_protocol/config_client_input_port_impl.h (connect, disconnect, assignSignal)"]}
{"id": "C53", "title": "Lists, dictionaries and values", "statement": "Lists behave as sequences and dictionaries as maps that remember the order in which keys came: every operation has the effect and answer it has on the mathematical object, frozen containers never change, and no reference to an element is lost or given up twice. Two values are equal exactly if they carry the same data, however deep lists and dictionaries nest; equality is an equivalence, equal keys find each other, a clone equals its original, and the value written to a property is the one read afterwards.", "quantifier": "all histories of operations on a list or dictionary, all nested values, all keys, all property values", "why_tests_cant": "Values nest without bound, and what breaks an equality or a hash code is a combination of kinds of values (ratios as keys, null beside a number, NaN, NUL in a string). Tests compare a few literals.", "anchors": ["core/corecontainers/src/listobject_impl.cpp (ListImpl)", "core/corecontainers/src/dictobject_impl.cpp (DictImpl)", "core/corecontainers/include/coretypes/dictobject_impl.h (BaseObjectHash, BaseObjectEqualTo)", "core/coretypes/include/coretypes/ordinalobject_impl.h (equals, getHashCode, compareTo, toBool)", "core/coretypes/src/stringobject_impl.cpp (getHashCode, equals, compareTo)", "core/coretypes/include/coretypes/objectptr.h (compareObjectPtr, equals, convertTo)", "core/coreobjects/include/coreobjects/property_object_impl.h (writeLocalValue)"]}
{"id": "C54", "title": "Mirrored signals are requested exactly while they are needed", "statement": "A signal of a remote device is requested from the server behind a streaming source exactly while the server offers it and somebody needs it there: a signal that is connected, enabled for streaming and has this source as its active one needs itself and its domain signal. Connecting, disconnecting, switching the active source, enabling and disabling streaming, adding and removing signals and sources keep this, and the data a connection gets comes only through the active source of its signal.", "quantifier": "all numbers of signals and streaming sources, all histories of connects, disconnects, switches of the source, signals becoming available and unavailable, added, removed and destroyed", "why_tests_cant": "Subscriptions are counted per source and a domain signal is shared by many signals; whether a count is right depends on the whole history of calls over all signals and sources.", "anchors": ["core/opendaq/streaming/include/opendaq/mirrored_signal_impl.h (subscribeInternal, unsubscribeInternal, onListenedStatusChanged, setActiveStreamingSource, deactivateStreaming, setStreamed, addStreamingSource, removeStreamingSource, removed)", "core/opendaq/streaming/include/opendaq/streaming_impl.h (addSignals, removeSignals, removeAllSignals, detachRemovedSignal, subscribeSignal, unsubscribeSignal, doSubscribeSignal, doUnsubscribeSignal, addToAvailableSignals, removeFromAvailableSignals, onPacket)", "core/opendaq/signal/include/opendaq/signal_impl.h (listenerConnected, listenerDisconnected, removed)", "shared/libraries/config_protocol/include/config_protocol/config_client_signal_impl.h (handleRemoteCoreObjectInternal)"]}
{"id": "C55", "title": "A client's component tree follows the device", "statement": "After a client has connected and the notifications of everything that happened on the device have been handled, the client shows every component of the device that is not private, with its name, description, visibility, active flag, tags, kind and statuses, and no other component, whatever was added, removed, renamed, tagged or loaded and however the changes were grouped into remote calls; a client that was connected all along shows the same as one that connects now; and a client that reconnects shows the device again.", "quantifier": "all component trees, all histories of changes on the device and all groupings of their events into notifications, whatever is sent of components removed meanwhile, all points at which the connection is made, lost and made again", "why_tests_cant": "The events of one remote call are sent together, and what they refer to is serialized only then, so a component can arrive before, with or after its own changes; whether the copy is right in the end depends on the whole sequence.", "anchors": ["shared/libraries/config_protocol/src/config_protocol_server.cpp (coreEventCallback, packCoreEvent, processCoreEventArgs, processUpdateEndCoreEvent, processAttributeChangedCoreEvent, SendOutCoreEvents, RpcScopeTracker)", "shared/libraries/config_protocol/include/config_protocol/config_protocol_client.h (connect, reconnect, triggerNotificationObject, findComponent)", "shared/libraries/config_protocol/include/config_protocol/config_client_component_impl.h (attributeChanged, tagsChanged, statusChanged, onRemoteUpdate, remoteUpdateStatuses, componentUpdateEnd)", "shared/libraries/config_protocol/include/config_protocol/config_client_folder_impl.h (DeserializeConfigFolder, componentAdded, componentRemoved, onRemoteUpdate)", "core/opendaq/component/include/opendaq/component_impl.h (setName, setActive, setDescription, setVisible, update, serializeCustomObjectValues, deserializeCustomObjectValues)", "core/opendaq/signal/include/opendaq/signal_container_impl.h (updateFunctionBlock)", "modules/native_streaming_client_module/src/native_device_impl.cpp (connectAndGetDevice, tryConfigProtocolReconnect, processConfigPacket)"]}
{"id": "C56", "title": "Structs have the shape of their type and never change, enumerations have a value of theirs", "statement": "Every struct has exactly the fields its struct type names, each with a value that is null, the field's default value or a value of the field's type, however it was created (from a dictionary, without values, under a name not registered yet, or through a builder); nothing that is done afterwards to the dictionary it was made from, to the builder, or to the type manager changes its type or its values; fields that were left out have their default value, and values that suit are accepted and kept; a creation that fails leaves no struct and registers no type; a builder changes only the field it was asked to and only to a value of its type; the value of an enumeration is always one of the names of its type, with the number given there, and enumerators without numbers are counted from the first; two types or values that compare equal have the same content.", "quantifier": "all histories of creating types, values, dictionaries, structs and builders, of changing dictionaries and builders and of adding and removing types, with any names, field types (nested to any depth), default values and any sharing of dictionaries between structs and builders", "why_tests_cant": "A struct keeps the dictionary object it was given and a builder shares its dictionary with what it builds, so whether a struct can still change depends on the whole history; tests create one struct and read it back.", "anchors": ["core/coretypes/include/coretypes/struct_impl.h (GenericStructImpl, equals, get, hasField, getAsDictionary)", "core/coretypes/src/struct_type_impl.cpp (StructTypeImpl, equals)", "core/coretypes/src/struct_builder_impl.cpp (set, setFieldValues, build)", "core/coretypes/src/enumeration_type_impl.cpp (EnumerationTypeImpl, equals)", "core/coretypes/src/enumeration_impl.cpp (EnumerationImpl, getIntValue, equals)", "core/coretypes/src/simple_type_impl.cpp (SimpleTypeImpl)", "core/coretypes/include/coretypes/type_impl.h (equals)", "core/coretypes/src/type_manager_impl.cpp (addType, removeType)"]}
{"id": "C57", "title": "The statistics block's results depend only on the samples, not on how they are packed, and the trigger block reports exactly the crossings", "statement": "Once configured, the statistics function block sends, for every stretch of input without a gap, one average and one root mean square for each complete block of BlockSize samples, blocks following one another at the distance the overlap asks for, each with the domain value of its first sample, and nothing else; how the samples are divided into packets makes no difference and a gap starts a new block. With its nested trigger it does the same for exactly the samples at which the trigger is on. Averages and root mean squares are those of the samples of the block. Changing properties or descriptors starts afresh; while the input is unsuitable nothing is sent. The trigger function block announces each change between below and at least the threshold, alternately, at the domain value of the sample, whatever the packets.", "quantifier": "all configurations (block sizes, overlaps, sample types, domain forms), all sequences of packets of any sizes with any gaps, all trigger histories and interleavings of trigger and input packets, all sample values", "why_tests_cant": "The results of one packet depend on what earlier packets left in the buffer, on the expected domain value and on the order in which two ports are served; tests send a few packets of chosen sizes.", "anchors": ["examples/modules/ref_fb_module/modules/ref_fb_module/src/statistics_fb_impl.cpp (configure, getNextOutputDomainValue, calculate, processDataPacketInput, processDataPacketTrigger, calc, validateTriggerDescriptors)", "examples/modules/ref_fb_module/modules/ref_fb_module/include/ref_fb_module/statistics_fb_impl.h (TriggerHistory, AggregateType)", "examples/modules/ref_fb_module/modules/ref_fb_module/src/trigger_fb_impl.cpp (processDataPacket, trigger, processSignalDescriptorChanged)"]}
{"id": "C58", "title": "Data descriptors are consistent, exact and do not change", "statement": "A data descriptor builder gives a descriptor exactly when the parts fit together (rule, sample type, scaling, struct fields, reference domain and dimensions), the descriptor has every part the builder held, its sample sizes are the bytes of the type or of all struct fields times the number of elements of the dimensions, and nothing anybody does later with the lists and dictionaries that were handed over changes what the descriptor says; a builder made from a descriptor gives the same descriptor again, and a failed build gives nothing and changes no contents.", "quantifier": "all histories of creating, sharing, writing and freezing lists and dictionaries, making dimension rules, dimensions, data rules and scalings, using builders and building, and every point in them", "why_tests_cant": "a test builds a few descriptors from fresh lists; who else holds a list, when it is written, and which combination of parts is asked for range over all histories", "anchors": ["core/opendaq/signal/src/data_descriptor_impl.cpp: DataDescriptorImpl, validate, calculateSampleMemSize, initCalcs", "core/opendaq/signal/src/data_descriptor_builder_impl.cpp: DataDescriptorBuilderImpl", "core/opendaq/signal/src/dimension_rule_impl.cpp: DimensionRuleImpl", "core/opendaq/signal/src/dimension_impl.cpp: getSize", "core/opendaq/signal/src/data_rule_impl.cpp: DataRuleImpl", "core/opendaq/signal/src/scaling_impl.cpp: ScalingImpl", "core/opendaq/signal/include/opendaq/scaling_calc.h: createScalingCalcTyped", "core/opendaq/signal/include/opendaq/data_rule_calc.h: createDataRuleCalcTyped"]}
{"id": "C59", "title": "Configuration sets the options it names and nothing else", "statement": "Environment variables, command line arguments and JSON files given to an instance builder set exactly the options they name: an option keeps its type and never disappears, options not named stay as they are, the last provider that gives an option a value of its type decides, an option that does not exist is created with the type the value suggests, a value of another type changes nothing, and reading the options again gives the same options.", "quantifier": "all option dictionaries, all lists of arguments and variables, all JSON documents, all sequences of providers and of calls on the builder", "why_tests_cant": "tests try some names and values; collisions between names, prefixes and separators, texts that look like other types, and the order of providers range over all inputs", "anchors": ["core/opendaq/opendaq/src/base_config_provider_impl.cpp: GetValuesStartingWith, SplitKey, WriteValue, HandleOptionLeaf, HandleUnderfineValue", "core/opendaq/opendaq/src/env_config_provider_impl.cpp: populateOptions", "core/opendaq/opendaq/src/cmd_line_args_config_provider_impl.cpp: populateOptions", "core/opendaq/opendaq/src/json_config_provider_impl.cpp: HandleObject, HandleArray, HandlePrimitive, HandleNumber", "core/opendaq/opendaq/src/instance_builder_impl.cpp: GetDefaultOptions, getOptions, addConfigProvider"]}
{"id": "C60", "title": "Clients of a native streaming server get the rights they announced and no more than are allowed", "statement": "After any messages of any clients of a native streaming server: no more clients configure the device than the limit allows; while one has exclusive control no other can change the device; a client that asks to configure is let in exactly when there is room and nobody is in its way (or it asked for those to be dropped), gets the rights of the type it announced and keeps them; a connection ends only because it was closed, its id was taken over by a reconnecting client or an exclusive client dropped it; nobody's message changes anything else of another client; ids are distinct; the device lists exactly the clients that configure or stream; a new signal is announced to exactly the clients that stream.", "quantifier": "all limits and all sequences of connections, property messages, configuration and streaming requests, disconnections and new signals, from any number of clients", "why_tests_cant": "tests connect two or three well-behaved clients in one order; limits, exclusion and lists have to hold for all interleavings, reconnections and renamings of any number of clients", "anchors": ["shared/libraries/native_streaming_protocol/src/native_streaming_server_handler.cpp: initSessionHandler, handleTransportLayerProps, connectConfigProtocol, handleStreamingInit, releaseSessionHandlerInternal, releaseOtherControlConnectionsInternal, incrementConfigConnectionCount, decrementConfigConnectionCount, addSignal", "shared/libraries/native_streaming_protocol/src/streaming_manager.cpp: registerClient, unregisterClient", "modules/native_streaming_server_module/src/native_streaming_server_impl.cpp: clientConnectedHandler, clientDisconnectedHandler", "core/opendaq/device/include/opendaq/device_info_impl.h: addConnectedClient, removeConnectedClient"]}
{"id": "C61", "title": "Users are let in exactly with their password, and with their groups", "statement": "An authentication provider accepts a name and a password exactly when the last user given under that name has that password (checked by bcrypt when the stored text has the form of a bcrypt hash, by equality otherwise) and accepts anonymous sessions exactly when that is allowed; the session then acts as that user. A user has exactly the groups given and everyone, each once; users are equal exactly when name, hash and groups are; a user that is saved and loaded is the same user. A JSON document gives the provider with exactly the users it describes or is refused. Nothing done with a user changes who is accepted, nor the groups of a user.", "quantifier": "all lists of users, all names, passwords and stored texts, all password hash functions, all JSON documents, all sequences of uses of a provider", "why_tests_cant": "tests log in with a few passwords; that nobody else gets in, for any stored text and any document, is a statement about all of them", "anchors": ["core/coreobjects/src/authentication_provider_impl.cpp: authenticate, authenticateAnonymous, isPasswordValid, loadUserList, loadJsonString, parseUsers, parseUser, parseUserGroups", "core/coreobjects/src/user_impl.cpp: UserImpl, getGroups, isAnonymous, equals, serialize, Deserialize, sanitizeGroupList", "shared/libraries/native_streaming_protocol/src/native_streaming_server_handler.cpp: onAuthenticate"]}
{"id": "C62", "title": "Task graphs run in order and completely; functions give their result once; stop leaves no work behind", "statement": "then() adds exactly one constraint between two tasks, puts a task that is in no graph into the graph of the other, and changes nothing else. When a graph is run, a task starts only after all tasks it must follow have ended, no task starts twice, no more tasks run at a time than there are workers, the run ends, and then every task of the graph has run. An awaitable gives exactly what its function returned or threw, once, blocks until then, and calls the function once. When stop() or waitAll() returns every accepted work has been executed exactly once, and no call is accepted after stop().", "quantifier": "all sequences of graph building calls, all graphs, numbers of workers and interleavings of starts and ends, all histories of an awaitable and its function, all interleavings of scheduling, workers and stop()", "why_tests_cant": "tests run a few small graphs on the scheduler of the test machine; order and completeness are statements about every graph and every interleaving", "anchors": ["core/opendaq/scheduler/src/task_graph_impl.cpp: TaskGraph::then", "core/opendaq/scheduler/src/task_impl.cpp: SubTask::then, SubTask::initialize", "core/opendaq/scheduler/src/awaitable_impl.cpp: wait, getResult, hasCompleted, cancel", "core/opendaq/scheduler/src/scheduler_impl.cpp: SchedulerImpl::stop, waitAll, scheduleFunction, scheduleWork, scheduleGraph, isMultiThreaded", "external/taskflow/patches/0001-Fix-Executor-async-functions-to-set-except.patch: named_async"]}
{"id": "C63", "title": "A failed call reports its own error and leaves the other errors of the thread alone", "statement": "A function that follows the conventions for errors (failures are made with their information, passed on, extended, changed, expected, caught and rethrown, never ignored) either succeeds and leaves the pending errors of the thread exactly as they were, or fails; then the code returned and the text of the exception thrown for it belong to this failure and to nothing that was pending before, and taking or clearing the error leaves the pending errors as before the call. Success and code do not depend on the build type. Whatever happens under an error guard, the errors outside of it are unchanged. An error object that was reported does not change, and reading a written one gives it back.", "quantifier": "all nested functions built from the conventions, all states of pending errors and guards of the thread, all builds, all orders of guard destruction, all sequences of operations on an error object", "why_tests_cant": "tests check single calls on an empty thread in one build; the claim is about every nesting of calls on top of every pending error", "anchors": ["core/coretypes/src/errorinfo_impl.cpp: ErrorInfoHolder, ErrorGuardImpl, ErrorInfoImpl, daqSetErrorInfo, daqExtendErrorInfo, daqGetErrorInfo, daqGetErrorInfoList, daqGetErrorInfoMessage, daqClearErrorInfo", "core/coretypes/include/coretypes/errorinfo_impl.h: ErrorInfoHolder, ErrorGuardImpl", "core/coretypes/include/coretypes/ctutils.h: makeErrorInfo, extendErrorInfo, OPENDAQ_RETURN_IF_FAILED, OPENDAQ_RETURN_IF_FAILED_EXCEPT, checkErrorInfo, checkErrorInfoExcept, checkErrorGuard, errorFromException, daqTry", "core/coretypes/include/coretypes/error_code_to_exception.h: GenericExceptionFactory"]}
{"id": "C64", "title": "Statuses read back the last accepted change, on every side", "statement": "A component's status reads the value and the message of the last accepted call for its name, and every call answers as its rules say: adding needs a new non-empty name, setting a known one and the same enumeration type, and setting what is there already is ignored. Refused calls change nothing and send no event; every accepted change of a value is sent once, with name, value and message. A client that receives the events shows the same statuses, and one that takes over the written statuses does. Writing and reading gives the statuses back. A connection status is read under the name told when it was added, with its last accepted value and message until it is removed; no name is ever used for two connections.", "quantifier": "all sequences of calls on the containers, all names, values, messages and connection strings, all lists of streaming types, all enumeration types with and without the value Removed", "why_tests_cant": "tests add two or three statuses and change them once; the claim is about every history of calls, about names that collide with the parameters of the event, and about clients following any sequence of changes", "anchors": ["core/opendaq/component/include/opendaq/component_status_container_impl.h: ComponentStatusContainerImpl::addStatusWithMessage, setStatusWithMessage, getStatus, getStatusMessage, serialize, Deserialize", "core/opendaq/device/include/opendaq/connection_status_container_impl.h: ConnectionStatusContainerImpl::addConfigurationConnectionStatus, addStreamingConnectionStatus, removeStreamingConnectionStatus, updateConnectionStatus, getStatus, getStatusMessage, Deserialize", "shared/libraries/config_protocol/include/config_protocol/config_client_component_impl.h: statusChanged, remoteUpdateStatuses"]}
{"id": "C65", "title": "Found devices are listed, resolved and connected as the rules say", "statement": "The options written in a connection string are read back, and nothing that is not written that way is accepted. Every device that some module reports with manufacturer, serial number and capabilities is found under daq://manufacturer_serial with the capabilities of all its reports, the first of each protocol; a listed device is found by its connection string. A daq:// connection uses the first of the most preferred protocols, and an address of the requested type if there is one, reachable before unknown before unreachable. A device is created by the first module with a type for the prefix, with the options of the connection string before the given configuration before the general values. Connecting several devices gives each its own result, whatever finishes first. A generated local id of a function block is new. After connecting, the capabilities are those of discovery and device, each protocol once.", "quantifier": "all connection strings, all lists of modules and of devices they report, all capabilities and addresses, all configurations, all orders in which devices get connected, all sets of local ids", "why_tests_cant": "tests connect one or two simulated devices; the claim is about every set of reports in every order, about texts with any characters, and about every number in a local id", "anchors": ["core/opendaq/modulemanager/src/module_manager_impl.cpp: ModuleManagerImpl::getAvailableDevices, createDevice, createDevices, createFunctionBlock, onCreateStreaming, resolveSmartConnectionString, getConnectionStringWithType, GetServerCapabilityPriority, SplitConnectionStringAndOptions, getPrefixFromConnectionString, PopulateDeviceTypeConfig, CopyCommonGeneralPropValues, mergeDiscoveryAndDeviceCapabilities", "core/opendaq/device/include/opendaq/device_info_impl.h: addServerCapability, hasServerCapability, removeServerCapability"]}
{"id": "C66", "title": "Operation modes reach the components of a device and no other device", "statement": "Setting an operation mode that a device does not offer changes nothing. Otherwise the call succeeds exactly if the device and all components in it accept the mode; then the device is in the mode, each of its components was told it, and no sub-device is changed. The recursive call puts every device below that offers the mode in it, with its components, leaves the others as they were, and succeeds exactly if all those can take it. A component reports the mode of the nearest device above it. What is added below a device is told its mode, and an added device takes its own default.", "quantifier": "all trees of devices, folders and components, all sets of offered modes, all handlers that accept or refuse modes, all modes", "why_tests_cant": "tests use one device with a few channels whose handlers always accept; the claim is about every tree and about every component that refuses", "anchors": ["core/opendaq/device/include/opendaq/device_impl.h: GenericDevice::setOperationMode, setOperationModeRecursive, updateOperationMode, updateOperationModeInternal, getOperationMode, setAsRoot", "core/opendaq/component/include/opendaq/folder_impl.h: FolderImpl::syncComponentOperationMode, updateOperationMode, addItem", "core/opendaq/component/include/opendaq/component_impl.h: ComponentImpl::getOperationMode, updateOperationMode", "core/opendaq/signal/include/opendaq/signal_container_impl.h: updateOperationMode"]}
{"id": "C67", "title": "The selected synchronization source survives changes of the interfaces", "statement": "The interfaces of a synchronization component have distinct names, and once there is one, one of them is selected. Adding accepts exactly objects of new classes that inherit from SyncInterfaceBase, appends them and keeps the selection. Removing an interface keeps the selected one, whatever its index becomes; if the selected one is removed the first takes its place. Selecting accepts exactly the indices of the interfaces. Failed calls change nothing. A removal in an update has the effect of the removal itself.", "quantifier": "all histories of adding, removing, selecting and locking, all names, indices and type managers with any chains of parents, all updates", "why_tests_cant": "tests remove one of two interfaces; the claim is about every history, and about every chain of classes", "anchors": ["core/opendaq/synchronization/include/opendaq/sync_component_impl.h: GenericSyncComponentImpl::addInterface, removeInterface, setSelectedSource, setSyncLocked, checkClassNameIsSyncInterface", "core/coreobjects/include/coreobjects/property_object_impl.h: checkSelectionValues, setPropertyValueInternal, endUpdateInternal, endApplyUpdate"]}
{"id": "C68", "title": "A device and its information agree", "statement": "A value of the device information is writable exactly if it was listed as changeable when the information was created, and no later call changes that; the name, the connection string and the SDK version are read only. Once the device has its information, read only values cannot be set, and writable ones are read back as set while no other value changes. The name of the device and the one its information shows are the same, whichever is renamed; so are the user name and the location, where writable, whichever side writes them. Loading a saved configuration restores the writable values and changes no read only one.", "quantifier": "all histories of setters, property writes, renaming on either side, locking of the name, getting the information and loading of configurations; all lists of changeable names, values and devices with any properties", "why_tests_cant": "tests set one value on one side and read it on the other; the claim is about every history, and about every pair of states saved and loaded", "anchors": ["core/opendaq/device/include/opendaq/device_info_impl.h: DeviceInfoConfigImpl::setName, setValueInternal, createAndSetStringProperty, getOwnerOfProperty, getPropertyValueNoLock, setPropertyValueNoLock, setProtectedPropertyValue, setOwner, updateInternal, serializePropertyValue", "core/opendaq/device/include/opendaq/device_impl.h: GenericDevice::getInfo, setName, updateDevice"]}
{"id": "C69", "title": "Log messages reach the sinks once, in order and as filtered", "statement": "A logger has at most one component of a name; the component got by a name is the same until the name is removed. A new component has the level and flush level of the logger; later its level changes only if it is set on the component itself. The level Default stands for an environment variable of the component, else a general one, else the level of the build. A sink gets, in the order they were logged, exactly the messages of at least its level that were at least of their component's level when they were logged, and after a flush of the logger those logged before are written out.", "quantifier": "all histories of adding, getting and removing components, setting levels on loggers, components and sinks, logging, flushing and steps of the logging thread, all environments", "why_tests_cant": "tests log a few messages and wait; the claim is about every interleaving of logging with the thread that writes, and every environment", "anchors": ["core/opendaq/logger/src/logger_impl.cpp: LoggerImpl::getOrAddComponent, addComponent, removeComponent, flush, flushOnLevel, setLevel", "core/opendaq/logger/src/logger_component_impl.cpp: LoggerComponentImpl::setLevel, logMessage, shouldLog, flush, flushOnLevel, getDefaultLogLevel, getLogLevelFromParam", "core/opendaq/logger/src/logger_sink_impl.cpp: LoggerSinkBase::setLevel, shouldLog, flush"]}
{"id": "C70", "title": "The origin of a domain means the instant its text says", "statement": "An origin text (a day, or a day and a time with or without a zone, as ISO 8601 writes them) is taken for the instant it says; the ways to say UTC mean the same, and a text that says no instant is refused. Readers and time readers go by the origin of the latest descriptor. Several signals are brought to the earliest of their origins and the finest of their resolutions, and each of their ticks becomes the common tick of the same instant.", "quantifier": "all days of years 0 to 9999, all times of day with up to nine decimals, all zones, all texts of days that do not exist, all lists of signals with their origins and resolutions, all ticks", "why_tests_cant": "tests parse a few texts, all in UTC and of our time; the claim is about every text and every distance of origins, including those whose arithmetic passes 64 bits", "anchors": ["core/opendaq/reader/include/opendaq/reader_utils.h: fixupIso8601, parseEpoch", "core/opendaq/reader/include/opendaq/time_reader.h: TimeReaderBase::handleDescriptorChanged", "core/opendaq/reader/include/opendaq/reader_domain_info.h: ReaderDomainInfo::setEpochOffset, setMaxResolution", "core/opendaq/reader/src/multi_reader_impl.cpp: MultiReaderImpl::setStartInfo", "core/opendaq/reader/src/signal_reader.cpp: SignalReader::handleDescriptorChanged"]}
{"id": "C71", "title": "The streaming sources of a device, their statuses and their owner stay in step", "statement": "A mirrored device has at most one streaming source of a connection string. Adding one of a new string puts it behind the others, gives it a connection status and makes the device its owner; removing by string takes away that source, its status and its owner and no other; a refused call changes nothing. Removing the device leaves no source, no owner and no status of a source, and the status of the configuration connection is not touched by any of this.", "quantifier": "all histories of adding sources, asking for streamings, removing sources, adding the configuration connection and removing the device, all connection strings", "why_tests_cant": "tests add one or two sources with well-chosen strings; the claim is about every order of the calls and every string, and what a failing call leaves behind", "anchors": ["core/opendaq/streaming/include/opendaq/mirrored_device_impl.h: MirroredDeviceBase::addStreamingSource, removeStreamingSource, onAddStreaming, removed", "core/opendaq/device/include/opendaq/connection_status_container_impl.h: ConnectionStatusContainerImpl::addStreamingConnectionStatus, removeStreamingConnectionStatus, addConfigurationConnectionStatus", "core/opendaq/streaming/include/opendaq/streaming_impl.h: StreamingImpl::setOwnerDevice"]}
