# Formal model of openDAQ in Rocq — design

Everything lives in `rocq/theories/`. For each component `X` there are up to four files:

* `X_Model.v`  – executable Gallina model, each definition citing the file and lines in `/repo` it models;
* `X_Spec.v`   – the small specification the theorems are stated with, independent of the model's helpers;
* `X_Proofs.v` – lemmas and proofs;
* `X_Props.v`  – only the property theorems (`exact lemma`), `Print Assumptions` under each one, and an
  `Example` showing that a concrete non-trivial case meets the hypotheses.

When the unchanged code violates the property as a user would state it, the file contains a theorem
`..._refuted` (an explicit reachable counterexample) and, next to it, the strongest positive theorem with the
hypothesis that excludes it. Those findings are collected at the end of this document.

## General modelling conventions

* Objects are immutable records; a C++ method becomes `state -> args -> state * result`. Error codes are
  constructors of a result type. Undefined behaviour (out-of-bounds access, null dereference, unsigned
  underflow where the property depends on it) is a separate outcome, never a normal-looking value.
* Every public method of the modelled classes takes the object's lock for its whole body, so a concurrent
  execution is an interleaving of whole calls; histories are lists of calls. Where that is not so (a lock is
  released between two steps, or a callback runs in the middle), the model has the smaller steps.
* Sample values are opaque (a type parameter or `Z`); floating point is not modelled.
* 64-bit arithmetic is modelled with explicit wrap-around where a property is about it (data rules, ratios,
  ids, headers), otherwise with unbounded `nat`/`N`/`Z`.
* Memory allocation failure, logging, reference counting of arguments and error texts are not modelled.

## Plan per property

| id | model | how it is proved |
|----|-------|------------------|
| C01, C02, C03, C04 | `Conn_*`: the connection's queue with all counters, the gap checker and the notification flag | trace invariant by induction over operations; refinement to a plain list; counters = scan of list; refutations for the counter and wake-up defects |
| C05, C06 | `PBuf_*`: the ring allocator with its out-of-sequence heap | invariant relating read/write positions to the list of live blocks; induction over create/release; FIFO refinement |
| C07, C08 | `Rule_*`: linear and constant data rule calculators in wrapped machine arithmetic | pointwise lemmas by induction on the count |
| C09, C10 | `Perm_*`: masks, builder, permission manager tree | bitwise lemmas; tree induction; invariant over histories |
| C11 | `Lock_*`: user lock state machine | induction over histories |
| C12 | `CfgPkt_*`: byte-level packet codec | round-trip and bounds lemmas on byte lists |
| C13 | `Frame_*`: transport header and control messages | bit lemmas, round-trip, bounds |
| C14 | `Rpc_*`: dispatch table with the checks each handler makes, in order | case analysis over handlers, for all users, locks and histories |
| C15 | `Notif_*`: event packing state machine | trace invariant |
| C16, C17 | `SMgr_*`: streaming manager | invariants over histories, refinement to subscriber sets |
| C18, C19 | `PStr_*`: packet streaming server and client | simulation between the server's input and the client's output |
| C20 | `Cache_*`: cache groups and write tasks | invariant, equality of byte streams |
| C21, C22, C23 | `SRead_*`, `TRead_*`, `BRead_*`: readers over packet lists | refinement to operations on the flat sample list |
| C24 | `Graph_*`: port graph and DFS | soundness/completeness of DFS with visited set, invariant |
| C25 | `Sig_*`: signals, domain signals, connections | trace invariant |
| C26, C27 | `Comp_*`: component tree, folder | tree induction, invariant |
| C28, C29, C30, C44 | `Prop_*`: property object with listeners as arbitrary programs (free monad over get, set, clear, replace, throw), update stack, batches, core events | invariants over histories by induction over the fuel of the mutually recursive calls; refinement to an inductive history semantics; a mirror that applies the events |
| C31 | `Ratio_*` | number theory in `Z` |
| C32 | `Event_*` | induction over histories |
| C33 | `Types_*` | invariant |
| C34 | `Loop_*`: main loop | trace refinement |
| C35 | `SubC_*`: client subscriptions | invariant |
| C36, C37 | `Tree_*`: tags, filters, search, ids and paths on component trees | set refinement over histories; induction on filters and trees; string lemmas |
| C38 | `Rule_*`: explicit packets | pointwise equality of getData and single values |
| C39, C40 | `SMgr_*`: signal registration and settings of the streaming server | invariant over histories |
| C41 | `Types_*`: classes in the type manager | induction over chains of ancestors; invariant over careful histories |
| C42, C43 | `Eval_*`: lexer, recursive descent parser, evaluation | soundness and completeness of the parser against an inductive grammar; induction over expressions |
| C45 | `Sig_*`: last value flags and cache | history determines the value |
| C46 | `RefC_*`: strong and weak counts, one agent per reference or operation in progress | inductive invariant over all interleavings |
| C47 | `Bulk_*`: layout of the allocation; counts of objects and chunk | arithmetic over the loops; inductive invariant over all interleavings |
| C48 | `Json_*`: the writer's events for every core object, the parser from events to a document, the deserializer functions of list, dictionary, ratio, complex number, enumeration and structure with the type manager, interface ids as hexadecimal text | round trip by induction on the object; arbitrary texts by induction on the depth of the document; refutations on concrete texts |
| C49 | `MRead_*`: the signal reader (queue, packet being read, synchronization to a tick, reading across packets and events) and the multi reader over a list of them (common start, status, waiting reads with packets that arrive meanwhile, invalid readers) | invariant tying every signal's position to one common position, through every call; progress from explicit states; refutations on concrete histories, the hole by an invariant over all continuations |
| C50 | `Conf_*`: the tree of components, saving it, the first half of loading (removing, creating, noting connections) and the second half (connecting, with the blocks that feed a port finished first), ports and signals that depend on what is connected | invariant over the second half: every block is done or at some stage of its list, induction over the number of waiting blocks, the rank of the source and the tree; induction over the saved tree for the first half |
| C51 | `CDev_*`: trees of devices, saved trees, update modes, the devices that can be reached, removal of replaced and of unused devices, the record of remappings | induction over the saved tree; invariant over the fold through the saved devices: what is under each local id, what is without a reference, which remappings are recorded |
| C52 | `Ext_*`: the client's table of streamed signals with their triggers, its ports, the mirrors and ports at the device, messages both ways | invariant over histories: triggers are exactly the reasons to send, mirrors exactly the needed signals; lemmas for letting go of a port (also twice), for removal at the device and for settling |
| C53 | `Cont_*`: list and dictionary objects with their operations and reference calls; equals, hash codes, compareTo of scalars, lists and dictionaries; clones; conversion and the local write of a property | list operations against pointwise descriptions of sequences; dictionaries by refinement of an ordered map; equality by induction on depth with a counting argument for dictionaries |
| C54 | `Mir_*`: mirrored signals with connections, streamed flag, active source and domain signal; sources with subscriber counts, available signals and the requests sent | an invariant that every count is the number of signals that need the item, kept by every call; deliveries by induction over all histories |
| C55 | `CMir_*`: the device's component tree with object identities, its operations and events, notifications serialized when sent, the client's handlers, connection and reconnection | an invariant on the client's tree between the state at each event and the state at which the notification was serialized, for every object that survives; induction over operations and notifications |
| C56 | `Strc_*`: types, values, shared dictionaries, structs, builders and the type manager, with every operation on them | an invariant over all histories: what structs share is frozen and conforms to the type; soundness of equality by mutual induction on types and values |
| C57 | `Stat_*`: configuration, buffer, expected domain value, trigger history, arithmetic of the sample types, trigger block | the buffer is the unfinished rest of the last stretch, by induction over packets; the shortened trigger history answers as the full one from the current domain value on; bounds for the sums |
| C58 | `Desc_*`: heap of freezable lists and dictionaries shared by owners; dimension rules, data rules, scalings, descriptor builders and descriptors with cached sizes and calculator numbers | invariant over all histories (frozen cells are kept, all known objects refer to frozen parameters); acceptance as an equivalence with a separate specification; sizes against products and sums; counterexample histories for what stays writable |
| C59 | `Opts_*`: option trees, argument splitting, text conversion, JSON merge and the builder's options | every provider is shown to be a sequence of single-path writes; type preservation, frame and effect by induction on paths; idempotence by absorption of writes later overwritten; counterexamples for surprising conversions |
| C60 | `Sess_*`: the session table, counters, streaming ids and list of clients of the native streaming server, as a step function on messages | invariants by induction on the history (keys are ids, sessions distinct, counters equal the counted modulo 2^64); releases of others as a filter; conditional invariants for types, ids and the list; counterexamples by evaluation |
| C61 | `Auth_*`: users, groups as an ordered set, the bcrypt form, providers from lists and JSON, session login | look-up as the last of a name by induction on the list; the matcher equals the form by cases; sorted lists are determined by their elements; reading of documents as an equivalence |
| C62 | `Task_*`: building of task graphs, their run by counters with any number of workers, awaitables with cancelling, the thread pool with stop() in two halves | invariant of the counters (what is queued, active or ended is exactly what has all its predecessors ended) by induction over the events; awaitables by an invariant over histories; accepted works as a permutation of queued, active and executed ones |
| C63 | `Err_*`: the scopes and pending errors of a thread, the message of both builds, the macros and helpers as a small language of calls, daqTry with and without guards, the error object and its serialisation | the language has a meaning without shared state (success or a chain of entries); refinement by induction over calls; isolation by a second induction over all calls |
| C64 | `CStat_*`: the two status containers with their dictionaries, events and serialisation, the handlers of the client, the alias generation with its counter | refinement to a table from names to value and message by induction over the calls; a simulation between server and client; invariants over the alias list, where the trailing number decides freshness |
| C65 | `MMgr_*`: splitting of connection strings, grouping of reports, choice of protocol and address, loops over the modules, results of several devices, generated local ids, configurations, merging of capabilities | an inverse of writing options; an invariant on the entry of an identification over the list of reports; first-best characterisation of the two choices; permutations of the finishing order; decimal numbers read by stoi |
| C66 | `OMode_*`: trees of devices and other components, handlers that accept or refuse, setting, recursive setting, reading, adding | induction on trees; loops that stop at the first failure; components addressed by paths |
| C67 | `SyncC_*`: the three properties of the synchronization component, adding and removing of interfaces, the class check, updates | invariant of histories (distinct names, index in range); removal at an index shifts those after it |
| C68 | `DInfo_*`: the String values of the device information, the owner that holds some of them, both setName, saving and loading | invariants of histories (flags constant, shared values exist on the device, names equal); effect of one write on all reads |
| C69 | `Logg_*`: loggers, components, sinks, the queue and steps of the logging thread, levels from the environment | invariants of histories; what a sink got and what waits for it is a function of the accepted messages; flushes stand behind earlier messages in the queue |
| C70 | `Epoch_*`: coercing and reading origin texts, the calendar of the date library, time readers, the common origin, resolution and ticks of several signals | the closed form of the days against a count by years and months (linear arithmetic with division); reading back printed texts; folds over the signals |
| C71 | `StrSrc_*`: adding, asking for and removing streaming sources, their statuses and owners | invariant of histories; a weaker invariant for all histories; histories that break the full claim |

## Trusted base

* Coq 8.16.1's kernel (`coqc`; `coqchk` accepts the same files) and its virtual machine (`vm_compute` is used for a few
  concrete examples and counterexamples).
* `Print Assumptions` stands behind every theorem in the `*_Props.v` files; every one prints "Closed under the
  global context": no axiom of the standard library is used, none is added, no kernel check is switched off.
* No library besides Coq's standard library is imported. (`vcheck` lists the `Coq.ssr.ssrunder` parameters of the
  standard library because its `ssreflect` plugin files are loaded with the prelude; no theorem depends on them.)
* That the definitions in `*_Model.v` say what the cited C++ says. This was done by reading; nothing was run. The
  comment at each definition names what it simplifies.
* That the words in `*_Spec.v` say what the English property says.

## What is modelled and what is not

| part of the code | modelled in | left out |
|---|---|---|
| connection queue, counters, gap check, notifications (`connection_impl`, `packet.cpp`) | `Conn_*` | scheduler latency, reference counts |
| packet buffer (`packet_buffer_impl`) | `PBuf_*` | the threads blocked in its condition variable are ops of the history |
| data rules, explicit packets, single value reads (`data_rule_calc_private.h`, `data_packet_impl.h`) | `Rule_*` | floating point, `reuse` |
| permissions (`permission_manager_impl`, `permission_mask_builder`, `user_impl`) | `Perm_*` | password hashing |
| device lock (`user_lock.cpp`, `device_impl.h`) | `Lock_*` | locks of remote sub-devices are the same ops |
| configuration packets, native framing and control messages, byte level | `Bytes`, `CfgPkt_*`, `Frame_*` | the JSON inside a payload, sockets |
| packet streaming server and client, caching and batching | `PStr_*`, `Cache_*` | the bytes of a sample |
| streaming manager and server handler | `SMgr_*` | sockets, authentication |
| ratios (with IEEE doubles from Coq's `SpecFloat` for the quotient comparison) | `Ratio_*` | |
| events (`event_impl.h`) | `Event_*` | |
| type manager, property object classes | `Types_*` | struct and enumeration values |
| main thread loop | `Loop_*` | timing |
| cycle check of input ports | `Graph_*` | |
| stream, tail and block readers over descriptors and samples | `SRead_*`, `TRead_*`, `BRead_*` | conversion between sample types, timeouts except where stated, multi reader |
| component activity, folders | `Comp_*` | visibility, statuses |
| expression lexer, parser, evaluator | `Eval_*` | floating point, units, string to number conversion (outcome `Outside`) |
| tags, search filters, ids, paths | `Tree_*` | the folders are a snapshot |
| property object: values, listeners, update stack, batches, events | `Prop_*` | nested objects, references, removal of properties, read listeners, containers and structures as values, locking |
| remote calls of the configuration protocol and their access checks | `Rpc_*` | message encoding, what the objects do once called (an oracle says yes or no), GetAvailable* lists, UpgradeProtocol |
| packing and sending of core events by the protocol server | `Notif_*` | the transport behind the notification callback (called with the lock held; a callback that raises a core event on the same thread would deadlock), how arguments are rewritten for the wire |
| signals: descriptors, domain signals, connections, sending, listened status, last value | `Sig_*` | event packets sent by hand, destruction of signals, type registration, related signals, timestamp and decoding of the last value |
| client side of a streaming: available ids, signal items, subscription counts, reconnection (`streaming_impl.h`) | `SubC_*` | the packets, dead weak references, the subscribe acknowledgements, activity of the streaming |
| reference counts and weak references (`intfs.h`, `weakref_impl.h`) | `RefC_*` | weak memory orderings, dispose (an unsynchronised flag), what destructors do, counter overflow |
| packets created in bulk (`bulk_data_packet.cpp`) | `Bulk_*` | alignment of the address malloc returns and of the objects, failing constructors, explicit dispose, reuse |
| JSON serialization of core objects | `Json_*` | characters of the JSON text (escapes, number formats: the tokens are modelled, a float is given back by the function rt), factory callbacks, serialization of types, property objects and components, default values of structure fields |
| multi reader | `MRead_*` | adding, removing and disconnecting inputs, changes of the used flag, the divider computation, resolution and epoch conversion of ticks, tick offset tolerance, non-linear domains, the builder's checks of units and reference domains, callbacks, the active flag, concurrent calls |
| saving and loading a configuration | `Conf_*` | properties, attributes, statuses, device information, the update modes of devices and remapping, devices that are not there, children that a new function block comes with, custom components, exceptions in updateEnded, concurrent changes |
| the update modes of devices and remapping | `CDev_*` | settings are one number per device; manufacturer, serial number and connection string are one key; devices with the same key are the same |
| signals of a client at a device's ports | `Ext_*` | one client; the network keeps order; packets themselves, streaming connections (version 18 on) and locked devices are left out |
| lists, dictionaries, equality and hash codes of values | `Cont_*` | element interface ids, iterators, printing, containers that contain themselves, conversions from and to strings, structures and enumerations; the hash table itself is a search for equal hash code and equal key |
| mirrored signals and their streaming sources | `Mir_*` | renaming of items when signals become available (see `SubC_*`), failing requests to the server, several signals per call, concurrency of calls, acknowledgement events, remote connections |
| client mirror of the component tree | `CMir_*` | properties, property objects, connections, domain signals, descriptors, locked attributes, the order of items, failing requests, events of protocol versions before 20 (each sent at once: batches of one operation) |
| structs, struct types, builders, enumerations, simple types | `Strc_*` | serialization, toString, hash codes, content of values that are neither structs nor enumerations, null names and managers, NUL bytes in names, threads |
| statistics and trigger function blocks | `Stat_*` | floating point samples, rounding of double, 64-bit ticks, statuses, inactive outputs, uninitialised sample type of the trigger block, threads |
| data descriptors, their builders, dimensions, dimension rules, data rules, scalings | `Desc_*` | equality and serialization of descriptors, labels of dimensions, floating-point parameters, units, ranges, tick resolution and strings as opaque values |
| configuration providers, instance builder options | `Opts_*` | JSON text parsing, file and environment access, hexadecimal, infinite and too large floating-point texts, locale, module-specific use of the options |
| sessions of the native streaming server | `Sess_*` | the transport library, authentication of the session (C61), heartbeat, host names, addresses, the packets themselves, more than one server on a device |
| users and authentication | `Auth_*` | bcrypt itself, JSON text parsing and file access, null names, the transport's own handshake |
| task graphs, awaitables, stopping the scheduler | `Task_*` | Taskflow itself (external), names and dumps, awaitables of graphs, graphs changed or released while they run |
| error information, error guards, calling conventions | `Err_*` | failing allocations, printf formatting, exception types, reference counts |
| component and connection statuses | `CStat_*` | locking, null arguments, the streaming object in events, client side of connection statuses |
| module manager | `MMgr_*` | loading of libraries, rescanning, network checks, address changes, old protocol ids, evaluation of option values, server and license functions |
| operation modes | `OMode_*` | locks, clients of remote devices, core events beyond the accepted modes |
| synchronization component | `SyncC_*` | listeners, serialization, client of a remote component, null type manager |
| device information | `DInfo_*` | values of other types, custom properties, network interfaces, server capabilities, mirrored devices |
| logger | `Logg_*` | patterns, source locations, files, the sink of the last message, failing sinks, periodic flush as an own thread, spdlog itself |
| reading of origins, common ticks | `Epoch_*` | the date library itself, signs of years, long double seconds, doubles, conversion of ticks to time points, formatting of the read origin |
| streaming sources of mirrored devices | `StrSrc_*` | values and events of statuses (in `CStat_*`), the streaming source manager, device types, locks |

## Findings

Places where the unchanged code, as modelled, does not do what the property says. The theorem named (or the
`_refuted` theorems of the property in MANIFEST.json) is the machine-checked counterexample.

* F01 dequeueAll/dequeueUpTo leave the gap-packet counter stale (C02)
* F02 a custom event packet is counted on enqueue and never uncounted (C02)
* F03 a gap inserted through enqueueMultiple hides a later gap packet from the sample counter (C02)
* F04 dequeueAll empties the queue without arming the wake-up: the next enqueue notifies nobody (C03)
* F05 enqueueMultiple bypasses gap detection (C04)
* F06 enqueueMultiple drops event packets while the port is inactive (C01)
* F07 a zero-sample packet released at the read position clears isFull: later packets overlap live memory (C05)
* F08 sampleCount * rawSampleSize wraps in size_t: a packet larger than the buffer is granted (C05)
* F09 out-of-order release across the wrap-around leaks memory permanently; createPacket then fails for ever and resize never returns (C06)
* F10 getAvailableSampleCount over-reports when the write position is ahead of the read position (C06)
* F11 an empty packet buffer may refuse a request of more than half its size (positions are not reset) (C06)
* F12 getValueByIndex/getLastValue throw for a non-integer domain type whose reference domain offset is 0, although getData works (C07)
* F13 constant rule: a single value read exactly at a change position returns the value before the change, unlike getData (C08)
* F14 constant rule: a change position beyond the sample count makes getData write past its buffer (C08)
* F15 explicit packet with only a reference domain offset: getValueByIndex reads an unwritten buffer (C38)
* F16 a failing device unlock re-locks anonymously locked sub-devices in the caller's name (C11)
* F17 a failing device lock releases locks the caller held deeper in the tree (C11)
* F18 lock fails on the device itself after its sub-devices were locked: they stay locked by the caller (sub-device added below a locked device) (C11)
* F19 unlock fails on a sub-device after the device itself was unlocked: it stays unlocked (C11)
* F20 lock compares users by value, unlock by object address: the same user in another object can lock again but not unlock (C11)
* F21 a restored lock whose user is unknown becomes an anonymous lock anyone may release (C11)
* F22 a protocol-info reply announcing more versions than its payload holds makes the client read past the packet (C12)
* F23 a set of 65536 supported versions is announced as 0 (16-bit count) (C12)
* F24 a streaming packet whose header + payload size reaches 2^32 passes the size check (32-bit wrap) and corrupts the connection (C13)
* F25 events other than descriptor changes are serialised and sent but never given to the user of the packet streaming client (C18)
* F26 a packet that waits for its domain packet is built with the descriptor current when the domain packet arrives (C18)
* F27 handing over the last reference of an already sent packet while the client waits for its domain packet leaks it on the client (C19)
* F28 a value packet whose domain packet never arrives is kept by the client forever, even after the server released it (C19)
* F29 one packet above the 28-bit message size makes the whole batch throw; packets already taken from the queue are lost (C20)
* F30 handleStreamingInit passes the cacheable payload size as release threshold and vice versa (C40)
* F31 a subscription from a client that never asked for streaming is accepted when it is the first, never removed when it disconnects, and makes every later packet of the signal throw (C16, C17)
* F32 when the subscribe handler fails the client stays recorded as subscriber, so the signal is never started (C16)
* F33 unregisterClientSignal ignores its client id (not modelled further)
* F34 the 32-bit signal number wraps: numbers repeat after 2^32 registrations (C17)
* F35 an exception in the middle of processPackets loses the rest of the batch (C17)
* F36 negative denominators are not normalised: 1/-2 is not equal to -1/2 (C31)
* F37 equal ratios have different hash codes (the object address) (C31)
* F38 == on ratio pointers compares the quotients as doubles, so different ratios can compare equal (C31)
* F39 SimplifiedRatio multiplication does not cross-reduce negative numerators, so an avoidable signed overflow is undefined behaviour; gcd of INT64_MIN is undefined (C31)
* F40 a handler that removes itself or an earlier handler during a trigger makes the next handler be skipped (C32)
* F41 handlers added during a trigger are called by it; a handler that re-adds itself makes it endless (C32)
* F42 a failing handler stops the later ones (C32)
* F43 handlers are removed and muted by hash; a hash collision removes the wrong one (C32)
* F44 without a custom order a property redefined in a child class is listed twice, once with the parent's definition (C41)
* F45 removing a parent class and adding it again as a child of its own child makes lookups recurse without end (C41)
* F46 addType does not check that the parent class is registered; hasProperty and getProperties then fail instead of answering (C41)
* F47 a stop request clears the running flag in the middle of its iteration, so another run or runIteration call is accepted before the iteration ends; it sets the flag again and the first run never stops; works are started out of order (C34)
* F48 setListener on a connected port is not checked for cycles and can create one (C24)
* F49 the cycle check and the making of a connection are not under one lock: two concurrent connects can close a cycle (C24)
* F50 a connect refused by the port's listener has already dropped the port's old connection (C24)
* F51 (C21) StreamReader ignores the error of reading a packet: readWithDomain on packets without domain packet, or data before any descriptor, never returns (stream_reader_impl.cpp readPacketData). c21_missing_domain_refuted, c21_no_descriptor_refuted.
* F52 (C21) values per sample are not reset when the descriptor goes back from array to scalar samples; later reads go beyond the packet (typed_reader.cpp). c21_back_to_scalar_refuted.
* F53 (C21) a reader created from an existing one while a descriptor change is pending reads the earlier packets with the new descriptor. c21_from_existing_refuted.
* F54 (C21) timed reads: samplesToRead underflows (or Any ignores the held packet), so the call waits although enough samples are held. c21_wait_refuted.
* F55 (C22) TailReader: any event other than a descriptor change (such as the gap event its own port is set up to produce) makes every later read throw (tail_reader_impl.cpp:174 with event_packet_utils.h:25). c22_gap_refuted.
* F56 (C22) TailReader with skipped events: two events met in one call take the samples before the first off the count twice (size_t underflow). c22_skip_events_refuted.
* F57 (C22) TailReader drops the samples before a pending event although the call returned none of them. c22_before_event_refuted.
* F58 (C23) BlockReader with overlap: trimQueue keeps too few packets, so rewindQueue decrements the iterator before begin() (undefined) even for packets of one size when they are larger than the block distance. c23_large_packets_refuted.
* F59 (C23) BlockReader with overlap and packets of unequal sizes: the rewind stops at the wrong sample and the block is silently wrong. c23_unequal_packets_refuted.
* F60 (C23) BlockReader: after a call that returned part of a block, the next one writes past the caller's buffer (the amount read per packet is not limited by what remains, which underflows). c23_short_read_refuted.
* F61 (C23) BlockReader with overlap: getAvailableCount leaves out queued packets behind the current one, so it reports 0 although a block can be read. c23_available_refuted.
* F62 (C23) BlockReader with overlap: a packet without samples divides by zero in trimQueue. c23_empty_packet_refuted.
* F63 (C26) A component that is created under an active parent and added after the parent was deactivated stays active for good: addItem does not pass the parent's activity on (folder_impl.h:465-473). c26_late_add_refuted; c26_stranger_refuted for a folder that is not the parent.
* F64 (C26, C27) remove() on an item leaves it in its folder; setActive of the folder then fails with COMPONENT_REMOVED at that item and the following items keep the old activity. c26_removed_item_refuted, c27_removed_stays_refuted.
* F65 (C26) update() sets the activity of a removed component (component_impl.h:1232-1246 has no check). c26_update_removed_refuted.
* F66 (C26) update() changes the activity of a frozen component, which setActive refuses. c26_frozen_refuted.
* F67 (C27) removeItem(x) removes a different component with x's local id (folder_impl.h:264-327). c27_remove_other_refuted.
* F68 (C27) addItem succeeds on a removed folder. c27_add_to_removed_refuted.
* F69 (C42) Whatever follows a complete expression is ignored ("1 2" is 1). c42_trailing_refuted.
* F70 (C42) A string that is never closed is dropped without an error, with everything behind its quote. c42_unclosed_refuted.
* F71 (C42) A comma behind the last element of a list is accepted. c42_trailing_comma_refuted.
* F72 (C42) Properties and tags named if, switch, true, false or unit, in any case, cannot be referred to. c42_keyword_names_refuted.
* F73 (C43) Integer division by zero and overflow in an expression are undefined behaviour (the process is killed by 1/0). c43_undefined_refuted.
* F74 (C43) Number-list operations swap their operands: 10 - [1] is [-9]. c43_number_list_refuted.
* F75 (C43) The check for equal list lengths compares the left list with itself (objectptr.h:846-847). c43_lengths_refuted.
* F76 (C43) 5 == true is false, true == 5 is true. c43_symmetric_refuted.
* F77 (C43) Lists compared with <, <=, >, >= are compared for equality. c43_list_less_refuted.
* F78 (C43) References in branches that are not taken must resolve all the same. c43_branch_refuted.
* F79 (C42, by reading only) cloneWithOwner of an expression drops its arguments and dereferences null after a parse error; argument numbers are cut to 32 bits; the argument bound check is off by one.
* F80 (C36, C37) Slashes are allowed in local ids, so two components can have the same global id; recursive searches then lose one, and nesting by id is wrong. c36_same_id_refuted, c37_slash_refuted.
* F81 (C36) A recursive filter inside and / or / not does not search recursively. c36_inner_recursive_refuted.
* F82 (C37) findComponent with the component's own global id finds nothing. c37_own_id_refuted.
* F83 (C37) An absolute id that does not begin with the component's local id is looked up as if it were relative. c37_foreign_refuted.
* F84 (C28) Minimum and maximum are applied after the validator: a valid value above the maximum is stored as the maximum even if that is invalid. c28_validator_refuted.
* F85 (C28) The coercer of a selection property runs after the check of the selection: the stored value need not be an item. c28_selection_refuted.
* F86 (C28) clearPropertyValues skips the properties of the object's class. c28_clear_all_refuted.
* F87 (C29) In a batch, invalid and read-only writes answer with success; the end of the batch stops at the first of them and drops all later writes. c29_refused_refuted.
* F88 (C29) Freezing an object inside a batch loses the batch, and the batch can never be ended. c29_frozen_refuted.
* F89 (C30) An "any property" or class listener that throws leaves the refused value readable; writing it again answers with success but stores nothing. c30_any_throws_refuted.
* F90 (C30) If a write made inside a listener fails in its own listener, the outer write answers with success and stores nothing. c30_nested_failure_refuted.
* F91 (C30) Clearing a property in the listener of its first write is ignored. c30_clear_ignored_refuted.
* F92 (C30) A throwing listener below clear, set, clear, set makes the update stack erase an entry that does not exist. c30_erase_refuted.
* F93 (C44) A batch that fails half-way sends no event for the writes it applied. c44_failed_batch_refuted.
* F94 (C44) The event at the end of a batch carries an older value if a listener of a later write changed the property. c44_stale_refuted.
* F95 (C44) If a listener replaces the value, the event carries it before coercion and limits. c44_replaced_refuted.
* F96 (C14) SetOperationMode looks neither at the connection type nor at the lock: a view-only client changes the mode of a locked device. c14_mode_refuted.
* F97 (C14) ChangeSignalSource makes no check at all. c14_source_refuted.
* F98 (C14) EndUpdate, BeginUpdate and ClearPropertyValues write nested objects without looking at their permissions; SetPropertyValue on the same property is refused. c14_nested_refuted.
* F99 (C14) Update of a device writes to locked sub-devices and to components without write permission. c14_update_refuted.
* F100 (C14) SetOperationModeRecursive, EndUpdate and ConnectExternalSignal may fail after having changed something. c14_half_way_refuted.
* F101 (C15) One core event whose serialization throws takes all events of its batch with it: neighbours raised in the same call never reach the client. c15_neighbour_refuted.
* F102 (C15) A call that started before an upgrade to version 20 or later does not flush: its reply may precede its events. c15_upgrade_refuted.
* F103 (C25) An inactive value signal drops the event that announces a new descriptor of its domain signal and never makes up for it: after activation its consumers read packets with a stale domain descriptor. c25_inactive_refuted.
* F104 (C25) setDomainSignal sends no descriptor event to the consumers of the signal. c25_domain_refuted.
* F105 (C25) Removing a domain signal takes it from its value signals without an event to their consumers. c25_removed_refuted.
* F106 (C25) Packets are put in the queues after the lock is released: a packet of the old descriptor may follow the event for the new one, and a disconnected connection may still get a packet. c25_race_refuted.
* F107 (C25) removed() drops the connections of a listened signal without onListenedStatusChanged(false). c25_listened_refuted.
* F108 (C45) sendPackets looks at the last packet only: when that packet has no samples the samples of the packets before it are not remembered. c45_batch_refuted.
* F109 (C35) A subscription is counted before its request is sent and stays counted when sending fails: every later subscription is accepted and nothing is requested. c35_failed_request_refuted.
* F110 (C35) subscribeSignal subscribes the domain signal first and leaves it subscribed when the value signal is not found. c35_domain_kept_refuted.
* F111 (C35) unsubscribeSignal cancels the domain signal first and gives up when it has been removed: the value signal stays subscribed for ever. c35_domain_gone_refuted.
* F112 (C35) Ids are matched by their last characters; when one id ends with another the item of the longer one is lost and subscribing it requests the other signal. c35_suffix_refuted.
* F113 (C35) A domain signal removed while a value signal uses it is not cancelled on the server. c35_drop_refuted.
* F114 (C46) A constructor that takes and releases a reference to itself without internalAddRef destroys the object under construction. c46_self_refuted.
* F115 (C46) A constructor that throws after it gave out a weak reference, without releaseWeakRefOnException, leaves the weak reference with freed counters; property objects call internalAddRef (property_object_impl.h 479) without that guard. c46_throw_refuted.
* F116 (C46) A weak reference taken before internalAddRef reads as expired although the object is being created. c46_early_refuted.
* F117 (C46) A weak reference asked for an interface the object lacks reads as expired although the object lives. c46_interface_refuted.
* F118 (C47) daqBulkCreateDataPackets checks the domain sample type only in debug builds: with 16-byte domain samples the domain data overlap the value data and run past the allocation. c47_domain_type_refuted.
* F119 (C47) The sizes of bulk packets are multiplied and added without overflow checks; malloc is not checked either. c47_overflow_refuted.
* F120 (C47) A packet created in bulk is destroyed, and its destruct notifications sent, only when all packets created with it are released. c47_destroyed_refuted.
* F121 (C48) a string with an embedded zero byte is written whole but read back only up to that byte (ToString of a C string). c48_zero_byte_refuted.
* F122 (C48) two dictionary keys that differ only after a zero byte become one key when read back: the entry of the first is overwritten. c48_lost_entry_refuted.
* F123 (C48) serializer version 1 drops the element interface ids of lists and dictionaries. c48_version_1_refuted.
* F124 (C48) deserializing {"__type":"Dict"} without an array "values", or with a null among the entries, uses a null pointer. c48_null_pointer_refuted.
* F125 (C48) deserializing a List without "values" or a Ratio without "num" or "den" throws a C++ exception out of a function that reports errors by code. c48_exception_refuted.
* F126 (C48) a ComplexNumber whose parts are written as integers, or are missing, is silently read as 0. c48_complex_integers_refuted.
* F127 (C48) a structure of an unregistered type comes back with a type inferred from its present field values (null fields become untyped) and this type is registered, so that the real type can no longer be registered. c48_unknown_type_refuted.
* F128 (C49) with signals of different rates, reading more than is available returns a count that is not a multiple of the dividers; the slow signal advances by less and the signals are misaligned from then on, a little more with every such read. c49_rates_drift_refuted.
* F129 (C49) skipSamples does not round its count to the common divider, with the same effect. c49_skip_drift_refuted.
* F130 (C49) if one signal has a hole in its ticks where the other begins (gap checking is off by default), every later packet of it is thrown away and the reader never returns a sample again. c49_hole_refuted.
* F131 (C49) the common start is never moved back: after descriptor changes whose ticks start over, all data is dropped until the old start is reached again. c49_start_never_earlier_refuted.
* F132 (C49) a read of 0 samples with fewer samples available than the minimum read count and an event queued at any one signal takes the samples out, also of the signals without an event, and writes them to the buffers given for 0 samples. c49_zero_read_takes_samples_refuted.
* F133 (C49) the same call never returns if the synchronization failed: the count was computed before the packets were dropped and the loop waits on an empty connection while holding the lock. c49_zero_read_spins_refuted.
* F134 (C49) readWithDomain of 0 samples with null pointers, allowed for read, dereferences them. c49_null_domain_crashes_refuted.
* F135 (C49) after a descriptor was refused, a read reports a count of 0 but writes samples to the buffers passed to an earlier call, which may be gone. c49_stale_buffers_refuted.
* F136 (C49) if the first signal is not used and has sent no data, reading throws a C++ exception out of read. c49_unused_first_throws_refuted.
* F137 (C49) getAvailableCount and read of a reader without used inputs dereference a null pointer. c49_none_used_crashes_refuted.
* F138 (C49) a change to null descriptors directly followed by a gap is not reported, only the gap is. c49_gap_hides_descriptor_refuted.
* F139 (C50) when one function block cannot be created, loadConfiguration fails after it has removed all function blocks: the old configuration is lost, saved blocks that come later are not created, and nothing is connected. c50_one_failure_loses_all_refuted.
* F140 (C50) the same failure inside of a sub-device is swallowed: loadConfiguration reports success. c50_failure_unnoticed_refuted.
* F141 (C50) input ports of fixed components (channels, built-in function blocks) that are connected keep their connection whatever was saved; a saved unconnected port is never disconnected. c50_keeps_old_refuted.
* F142 (C50) a configuration whose connections run in a circle makes loadConfiguration recurse without end; the list of blocks being finished (parentDependencies) is kept but never looked at. c50_circle_never_loads_refuted.
* F143 (C50) a saved connection whose port is not there is made to the first free port of the block instead. c50_wrong_port_refuted.
* F144 (C51) two devices side by side that are to take each other's place (A to B and B to A): when B is processed, the B that was just added for A is taken for the old one and removed. One device and its settings are lost, although a comment in the code says that this case is supported. c51_swap_refuted.
* F145 (C51) the options are kept by local id alone: two devices with the same local id below different devices share one mode, e.g. both are removed although the user wanted only one removed. c51_shared_mode_refuted.
* F146 (C51) remapping to a device that cannot be reached removes the old device all the same. c51_unreachable_loses_refuted.
* F147 (C51) a device that is found again by manufacturer and serial number under another local id is loaded, but the change of id is only recorded for remapped devices, so that connections to its signals are not restored. c51_new_id_unknown_refuted.
* F148 (C51) a device that takes the place of another and is itself in the file gets the settings of whichever comes last. c51_two_on_one_refuted.
* F149 (C51) remapping replaces every segment of the id of a signal, also those of function blocks and signals that have the local id of a replaced device. c51_other_segment_refuted.
* F150 (C52) connecting a port that has one external signal to another one with the same domain signal (or to its domain): the device's event about the removed old signal reaches the client before the reply, the client disconnects the old signal a second time and releases the domain that it has just registered again. Below protocol version 18 the connect then fails at the client although the device's port is connected; from 18 on the device's signal loses its domain signal. c52_replace_shared_domain_refuted.
* F151 (C52) when the domain signal of a connected external signal changes, disconnecting throws inside; the signal and its old domain stay at the device and are sent for ever. c52_change_domain_refuted.
* F152 (C52) a connect that the device's input port refuses leaves the signal and its domain at the device and registered at the client. c52_refused_connect_refuted.
* F153 (C52) an external signal whose domain signal has a domain signal itself can be connected but not disconnected: adding counts one level, removing goes through all of them and throws. c52_domain_of_domain_refuted.
* F154 (C53) equal ratios (also lists, structures) have different hash codes: a value stored in a dictionary under a ratio is not found with an equal one, and two equal keys are kept. c53_ratio_keys_refuted.
* F155 (C53) comparing lists or dictionaries where one holds null and the other a number at the same place reads through the null pointer. c53_null_items_refuted.
* F156 (C53) a dictionary that holds NaN is not equal to itself; a list that holds the same NaN object is. c53_nan_in_dictionary_refuted.
* F157 (C53) strings of one length that differ only after a NUL are equal and the same key. c53_nul_in_string_refuted.
* F158 (C53) the hash code of a negative or very large Float is an undefined conversion to an unsigned integer. c53_negative_key_refuted.
* F159 (C53) hasKey(null) reads through the null pointer when a key with hash code 0 (0, false, empty string) is in the dictionary; get and set refuse null. c53_has_null_key_refuted.
* F160 (C53) the comparison of Floats calls NaN equal to every number: writing NaN to a Float property is silently ignored, and a property with default NaN can never be given another value. c53_nan_write_refuted.
* F161 (C53) == of two object pointers converts the right one to the kind of the left: Integer 1 == Float 1.5, but not Float 1.5 == Integer 1. c53_pointer_equality_refuted.
* F162 (C53) an Integer is converted to a Bool by its lowest 8 bits: writing 256 to a Bool property stores false, while 256.0 stores true. c53_bool_of_256_refuted.
* F163 (C54) the device changes the domain signal of a signal that is being received: the old domain signal stays requested, the new one is not; when the last listener leaves, the new domain signal is unsubscribed, which fails, and the value signal stays requested for good. c54_domain_change_refuted.
* F164 (C54) a connection that fails because the subscription fails leaves the signal marked as listened to; the next connection is accepted without a subscription and gets no data. c54_failed_connect_refuted.
* F165 (C54) closing such a connection takes away the subscription of another signal: the domain signal both share is cancelled while the other is still received. c54_stolen_subscription_refuted.
* F166 (C54) a domain signal is taken from a source while a signal that needs it is received through it: closing the connection and switching the source both fail, the first leaves the value signal requested without any listener. c54_domain_taken_refuted.
* F167 (C55) a signal (or port) that was private when the client connected and is made public later never appears at the client. c55_made_public_refuted.
* F168 (C55) a signal made private stays at the client and is shown as public there. c55_made_private_refuted.
* F169 (C55) loading a configuration, or reconnecting, makes the private signals of the device appear at the client. c55_private_after_load_refuted.
* F170 (C55) a private signal added while a client is connected is shown to that client, and not to clients that connect later. c55_private_added_refuted.
* F171 (C55) when a loaded configuration puts another function block under the local id of an old one, the client keeps showing the old type, the old tags and the old statuses. c55_replaced_block_refuted.
* F172 (C55) a status added to a component after the client connected is not sent, and its later changes fail at the client. c55_status_added_refuted.
* F173 (C55) a component with an empty name has the empty name at clients that were connected when it was set and its local id as its name at clients that connect later. c55_empty_name_refuted.
* F174 (C55) a change made between the moment the device is serialized for a connecting client and the moment this client starts to accept notifications is lost. c55_change_while_connecting_refuted.
* F175 (C55) tags changed while the connection was down are not brought over by the reconnection. c55_tags_after_reconnect_refuted.
* F176 (C55) a notification handled between the serialization of the device for a reconnection and its application is undone by it. c55_change_while_reconnecting_refuted.
* F177 (C55) two threads that set the name of one component at once can leave clients with the other name for good, since the event is built and queued after the lock is released. c55_name_race_refuted.
* F178 (C56) a struct field of an enumeration type accepts an enumeration of a different enumeration type: only the core type is compared. c56_enumeration_field_refuted.
* F179 (C56) default values of a struct type are never compared with the field types, so structs can hold values of the wrong type. c56_default_values_refuted.
* F180 (C56) StructBuilder.set with a null value looks the default value up and then stores the null pointer. c56_builder_null_refuted.
* F181 (C56) build freezes the dictionary the builder goes on using; the next set throws FrozenException out of the interface function. c56_builder_after_build_refuted.
* F182 (C56) StructBuilder.setFieldValues reads the list as strings: any other value makes a conversion exception leave the interface function. c56_set_values_refuted.
* F183 (C56) StructBuilder.set refuses a ratio for a field of SimpleType(ctRatio), and any value for a field of undefined type, which the Struct constructor accepts. c56_builder_is_stricter_refuted.
* F184 (C56) creating a struct adds the missing fields to the caller's dictionary even when the creation fails, and freezes it when it succeeds. c56_failed_creation_changes_dictionary_refuted.
* F185 (C56) structs of one type with equal fields compare different when the fields were given in another order. c56_equality_order_refuted.
* F186 (C56) equality of types is not symmetric: SimpleType(ctStruct) equals a struct type called struct, which does not equal it. c56_equality_symmetry_refuted.
* F187 (C56) comparing struct types (for example when one is added again) calls equals through a null pointer when one default value is null and the other is not. c56_null_default_refuted.
* F188 (C56) a struct type may name a field twice; with different field types no struct of it can have a value there. c56_duplicate_names_refuted.
* F189 (C56) an enumerator with an empty name is accepted in the type, but Enumeration(name, "", manager) refuses it. c56_empty_enumerator_refuted.
* F190 (C56) an EnumerationType whose last number is the largest 64-bit number overflows its counter. c56_enumerator_overflow_refuted.
* F191 (C57) with a nested trigger the statistics block reads the domain value behind the last one of every packet that has samples: the loops read before they check the index. c57_reads_past_end_refuted.
* F192 (C57) the results of the triggered statistics block depend on which of its two ports is served first: a packet handled before the trigger's packet is judged by the old state. c57_order_of_arrival_refuted.
* F193 (C57) root mean squares are wrong for ordinary values: squares are summed in a type only twice as wide, so two 8-bit samples of 255 give 179, three Int8 samples of 127 give a negative sum whose root is undefined, UInt16 and Int32 samples above 46340 overflow int, UInt32 squares wrap. c57_rms_refuted.
* F194 (C57) averages of 8-bit samples wrap for blocks of more than 257 samples, and a block size that is a multiple of 65536 divides by zero. c57_average_refuted.
* F195 (C57) BlockSize has no minimum: with 0 the first packet divides by zero. c57_block_size_zero_refuted.
* F196 (C57) explicit domain values of UInt16 inputs are never written: the case for UInt16 instantiates the calculation for UInt64 with an implicit domain. c57_explicit_domain_refuted.
* F197 (C57) a descriptor event of the nested trigger marks the block as valid although its input is refused; the next packet uses members that were never set. c57_trigger_enables_unconfigured_refuted.
* F198 (C57) the check of the trigger's value descriptor is inverted: the trigger's own sample type makes the block invalid. c57_trigger_descriptor_refuted.
* F199 (C57) removing the nested trigger keeps its history, so a new trigger starts with the old one's state. c57_removed_trigger_refuted.
* F200 (C58) The parameter dictionary of a linear scaling (and of any scaling not made by a builder) is never frozen: the constructor's body asks its own moved-from argument instead of the member (scaling_impl.cpp:36-43). getParameters() of a scaling in use can be written; the descriptor goes on scaling with the old numbers while reporting the new ones. c58_scaling_refuted.
* F201 (C58) The list of labels of a list dimension rule is not frozen: writing it changes the size of a dimension inside a finished descriptor (or makes it unreadable) while the descriptor's sample size stays as computed. c58_labels_refuted.
* F202 (C58) An empty list of struct fields is not frozen when a descriptor without struct fields is built; pushing a descriptor into getStructFields() turns the finished descriptor into one that claims struct fields and whose copy can no longer be built. c58_struct_fields_refuted.
* F203 (C58) A dimension of size zero is counted as one element in the sample size. c58_empty_dimension_refuted.
* F204 (C58) The product of the dimension sizes wraps: two dimensions of 2^32 give the sample size of a single element. c58_overflow_refuted.
* F205 (C58) A build that fails after validation (unknown dimension rule, unsupported calculator type) leaves the caller's dimension list and metadata frozen. c58_failed_build_freezes_refuted.
* F206 (C58) The rule type Other of dimensions is accepted everywhere but a descriptor with such a dimension can never be built, because its size is unknown. c58_custom_dimension_refuted.
* F207 (C58) The check that says non-integer sample types cannot have a reference domain offset accepts Float32 and Float64. c58_float_offset_refuted.
* F208 (C59) An option whose name (or the name of a dictionary it lies in) contains an underscore cannot be set by an environment variable or argument at all: the underscore is the separator and cannot be escaped; nothing is reported. c59_underscore_refuted.
* F209 (C59) The value of an option that does not exist yet is guessed: an IPv4 address such as 192.168.0.1 becomes the floating-point number 192.168, since any text with a point that begins with a number is one. c59_address_refuted.
* F210 (C59) Integers are read with stoll, which stops at the first other character: WorkersNum=12abc is 12 and WorkersNum=3.7 is 3. c59_junk_refuted.
* F211 (C59) A floating-point option ignores whole numbers, both the text 5 and the JSON number 5, silently. c59_whole_float_refuted.
* F212 (C59) JSON integers above 2^63 become negative options. c59_unsigned_refuted.
* F213 (C59) OPENDAQ_CONFIG_PATH, which names the configuration file, also creates an option PATH when the environment provider is used. c59_path_variable_refuted.
* F214 (C59) Configuration overrides what the program sets explicitly on the builder, whichever came first, and the builder's getter returns the old value until the options are read. c59_setter_overridden_refuted.
* F215 (C59) An instance's context holds the builder's own options dictionary, so later setters on the builder (or reading its options) change the options of running instances. c59_shared_refuted.
* F216 (C59) Every getOptions applies all providers to the same dictionary again; with a null in a file the second reading differs from the first. c59_again_refuted.
* F217 (C60) A client with exclusive control that sends its properties again with another type keeps its rights but is counted as the new type: a second exclusive client is let in beside it, even when that one asked for the others to be dropped. c60_two_exclusive_refuted.
* F218 (C60) The same message makes the unsigned count of controlling clients wrap when the client leaves: from then on the server refuses every exclusive client although nobody configures. c60_locked_out_refuted.
* F219 (C60) Any client ends the connection of any other, of whatever user, by naming its id with Reconnected set; ids given by the server are consecutive numbers. c60_kicked_refuted.
* F220 (C60) A client that sends its own id with Reconnected set twice ends its own session and an exception leaves the handler on the server's transport thread. c60_own_id_refuted.
* F221 (C60) A client that takes the id AssignedByServer/<n+1> as its own makes the next client be accepted but never served: the new handler is silently not inserted. c60_future_id_refuted.
* F222 (C60) A client that configures and streams over one session leaves an entry in the device's list of active clients for ever. c60_listed_both_refuted.
* F223 (C60) So does a client that takes another id while it configures. c60_listed_renamed_refuted.
* F224 (C60) A second streaming request over one session throws on the transport thread. c60_stream_twice_refuted.
* F225 (C60) A client that takes another id while it streams makes announcing any new signal of the device throw, for all clients. c60_renamed_stream_refuted.
* F226 (C60) Another client that then takes the old id is sent the announcements and packets of the first. c60_misdelivered_refuted.
* F227 (C60) The limit is checked before other clients are dropped: an exclusive client that asks for the others to be dropped is refused by a full server whose place it would have freed. c60_limit_before_drop_refuted.
* F228 (C61) getGroups of a user, which is documented as immutable, returns the user's own list, which is not frozen: whoever gets a user object can add a group to it, and every session of that user has the permissions of that group from then on. c61_group_pushed_refuted.
* F229 (C61) A listed user with an empty name and an empty password is let in with anonymous sessions forbidden, and counts as anonymous. c61_empty_user_refuted.
* F230 (C61) A JSON authentication text that is valid JSON but no object (for instance [] or 1) is not refused: HasMember is called on it, which rapidjson only guards by an assertion. c61_not_object_refuted.
* F231 (C61) Users that are not given as an array (an object by name, say) are ignored without an error; the check that would refuse them comes after the return. c61_users_ignored_refuted.
* F232 (C61) Names and password hashes from JSON are cut at a zero byte, so a user listed as admin\u0000x replaces the user admin. c61_zero_byte_refuted.
* F233 (C62) then() accepts a cycle (also a task with itself): the tasks of the cycle and all after them never run, and the awaitable of the graph becomes ready all the same. c62_cycle_refuted.
* F234 (C62) then() accepts a constraint between tasks of two graphs: the later task is never run in its own graph, without an error. c62_other_graph_refuted.
* F235 (C62) then() between two tasks neither of which is in a graph yet dereferences a null pointer. c62_unattached_refuted.
* F236 (C62) hasCompleted of an awaitable is overwritten by its second assignment and only says whether the result was already taken: it is false after the function returned, even after a successful wait. c62_completed_refuted.
* F237 (C62) A function that was cancelled before it started, with cancel answering true, is called all the same: the patched lambda sets the empty result and goes on (a return is missing). c62_cancel_refuted.
* F238 (C62) scheduleWork, scheduleFunction and scheduleGraph test the stopped flag and then use the executor: stop() in between leaves them with a null pointer. c62_race_refuted.
* F239 (C62) waitAll and isMultiThreaded dereference the executor that stop() has released. c62_after_stop_refuted.
* F240 (C62) stop() is documented to cancel all outstanding work; it executes all of it before it returns. c62_stop.
* F241 (C62) scheduleGraph runs the flow of the graph by reference and the awaitable does not hold the graph: a graph object released before the run is over is used after it is freed (not modelled).
* F242 (C63) OPENDAQ_RETURN_IF_FAILED with a message on a failing code that was returned without error information (57 places in core return one, for example integer_impl.cpp:104 and util.cpp:93-121) throws std::runtime_error out of the ErrCode interface; without a message it does so in debug builds only. c63_bare_refuted.
* F243 (C63) A failing result that is ignored stays pending: a later failure with the same code and no information of its own is reported with the text of the earlier one, and the pending errors of the thread grow without bound. c63_stale_refuted.
* F244 (C63) OPENDAQ_RETURN_IF_FAILED_EXCEPT and checkErrorInfoExcept clear the last pending error also when the expected code came without information: an unrelated error of a caller is lost. c63_except_refuted.
* F245 (C63) A function that returns a failing code from inside its own error guard loses the information, and extending the code in the caller throws std::runtime_error. c63_guard_return_refuted.
* F246 (C63) An ignored failure inside daqTry or wrapHandler makes the call fail when error guards are enabled (debug builds) and succeed otherwise. c63_build_refuted.
* F247 (C63) daqGetErrorInfo and daqGetErrorInfoMessage do not write their result when no scope is active: the caller reads its own uninitialised pointer. c63_untouched_refuted.
* F248 (C63) An error guard whose last reference is released by another thread stays registered in the thread that made it, which then uses freed memory. c63_thread_refuted.
* F249 (C63) getFormattedMessage of an error object caches the text before the object is frozen: later changes do not show. c63_cached_refuted.
* F250 (C63) Serialising an error object loses its code and its previous code; the read object says OPENDAQ_ERR_GENERALERROR. c63_code_lost_refuted.
* F251 (C64) The StatusChanged event holds the value under the name of the status and the message under "Message": a change of a status that is called Message sends no value, and clients keep the old one for ever. c64_message_name_refuted.
* F252 (C64) Adding a status sends no event. When a status that was added after a client connected changes, the handler of the client throws NOTFOUND and the client never shows it. c64_added_later_refuted.
* F253 (C64) removeStreamingConnectionStatus removes the configuration connection too, reports it with the streaming protocol, and no configuration connection can be added afterwards, as the flag that one was added is never cleared. c64_config_removed_refuted.
* F254 (C64) removeStreamingConnectionStatus first removes the connection and then makes the value Removed: for an enumeration type without that value it throws, the connection is gone, and no event is sent. c64_removed_anyway_refuted.
* F255 (C64) Reading back connection statuses drops every streaming connection, although they are written. c64_streaming_lost_refuted.
* F256 (C65) Found devices are grouped by manufacturer + "_" + serial number: manufacturer a_b with serial c and manufacturer a with serial b_c become one entry with the capabilities of both. c65_different_devices_refuted.
* F257 (C65) Of two reported devices without identification and with the same connection string only the last is listed; one whose connection string is daq://... replaces the entry of an identified device. c65_none_lost_refuted c65_entry_kept_refuted.
* F258 (C65) createStreaming has no break: every module with a type for the prefix makes a streaming, the last is returned and the others are dropped. c65_one_streaming_refuted.
* F259 (C65) An item with the local id T_2147483647 makes the number of the next function block overflow a signed int. c65_local_id_refuted.
* F260 (C65) A value given for one device type that equals the general default is replaced by the general value; it cannot be told apart from a value that was not given. c65_given_value_refuted.
* F261 (C65) A property that discovery knows and the device does not is added to the merged capability as a copy of the property, with the default and not with the discovered value. c65_discovered_value_refuted.
* F262 (C66) A device that is added to another, or made the root, enters its default mode without telling its components: they keep the mode they were told before although they report the default. c66_device_agrees_refuted c66_root_agrees_refuted.
* F263 (C66) If a component refuses the mode, setOperationMode fails with the device already in the new mode, some components told and the others not. c66_failed_refuted.
* F264 (C66) setOperationModeRecursive returns success although devices do not offer the mode and stay in their own. c66_recursive_all_refuted.
* F265 (C66) The answer of an added component to the mode is ignored: it reports the mode of its device although its handler refused it. c66_untold_refuted.
* F266 (C67) Two interfaces removed in one update: both removals start from the index stored before the update, so the selected source can change or its index be out of range. c67_update_refuted.
* F267 (C67) Removing the only interface in an update collects the selection of index 0, which fails: endUpdate fails and changes collected after it are lost. c67_update_end_refuted.
* F268 (C67) addInterface follows parents without a limit: two classes that name each other as parents end in a stack overflow. c67_classes_end_refuted.
* F269 (C68) The name, connection string and SDK version are created by the default constructor, before the list of changeable names is read: listing one of them has no effect. c68_early_refuted.
* F270 (C68) Renaming a device whose attribute Name is locked is ignored by the device, but was already written to its information: the two names differ from then on. c68_names_refuted.
* F271 (C68) The information saves the user name and location it held before it had an owner, not those of the device: loading the configuration writes the old ones over the restored ones. c68_load_refuted.
* F272 (C68) Loading a configuration does not clear values that were unset when it was saved. c68_load_default_refuted.
* F273 (C69) A number above 6 in the variable of a component gives the level of the build, although the general variable is set to a level; negative numbers and text fall back to the general one. c69_default_refuted.
* F274 (C69) A component of level Off still accepts messages of level Off. c69_off_refuted.
* F275 (C69) The level Default set on a sink is not resolved: it is above all others, so the sink drops every message. c69_sink_default_refuted.
* F276 (C69) A flush of a logger without components writes out only what its sinks already have: messages of removed components that wait for the thread are not flushed. c69_flush_refuted.
* F277 (C70) The minutes of a zone written with a colon are ignored: %z reads +hh[mm] without a colon, so an origin of +05:30 is half an hour off, without an error. c70_colon, c70_origin_refuted.
* F278 (C70) Origins before 1677 or after 2262 pass the 64 bits of the clock and are read as other instants, without an error. c70_range_refuted.
* F279 (C70) Readers do not look at whether the origin was read: any text that says no instant, such as one without seconds, counts as 1970-01-01. c70_bad_origin, c70_bad_origin_refuted.
* F280 (C70) A time reader that gets a descriptor with an origin it cannot read goes on with the origin of the descriptor before. c70_time_reader_refuted.
* F281 (C70) The distance of an origin from the common one is multiplied by the denominator of the resolution in 64 bits: with ticks of a microsecond, origins more than about two and a half hours apart are aligned wrongly. c70_shift_refuted.
* F282 (C70) The common origin and resolution start from the first signal of a multi reader even if it is unused. c70_common_used_refuted.
* F283 (C71) A streaming with the connection string of the configuration connection is refused but stays in the list without an owner; removing it takes away the status of the configuration connection. c71_config_refuted.
* F284 (C71) A streaming without a connection string is refused but stays in the list; it cannot be removed, and removing the device stops at it, so later sources keep the device as owner. c71_stuck_refuted.
* F285 (C71) Asking for a streaming checks the requested string, not that of the streaming made: one with the string of a source that is there is refused but listed a second time. c71_requested_refuted.
