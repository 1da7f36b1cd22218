# Formal model of google/rootcanal: design

## Method

Each module of /repo that carries one of the properties in `properties.jsonl`
is transcribed, function by function, into total computable Gallina functions
(`rocq/theories/<Name>.v`). The C++ object state becomes a record, a member
function becomes `state -> args -> state * result`, and a class history becomes
`fold_left` over a list of operations. Behaviour that C++ leaves undefined
(out-of-range indexing, over-wide shifts), aborts (`ASSERT`, `FATAL`) and
non-termination are explicit outcomes of the model.

File roles:

* `<Name>.v`        model only, every definition cites file:lines in /repo;
* `<Name>Spec.v`    (when needed) an independent specification, not using the model;
* `<Name>Proofs.v`  lemmas;
* `P_<Name>.v`      property theorems only, each closed by `exact`, followed by
                    `Print Assumptions`, next to an `Example` showing that its
                    hypotheses are met by a concrete case.

A theorem whose name ends in `_refuted` exhibits a reachable counter-example:
the faithful model violates the English property (a finding about the code).
A theorem whose name ends in `_partial` proves only part of a property.

## Plan per property

| id | modelled code | how it is proved |
|----|---------------|------------------|
| C01 | H4Parser, H4DataChannelPacketizer | `step` on one byte and `consume` on a chunk; round trip by induction on the packet list; chunking by `consume_app` |
| C02 | H4Parser | invariant over op lists; abort is a distinct outcome |
| C03 | H4Parser recovery | characterisation of the first occurrence of 01 03 0c 00 by a separate list predicate |
| C04 | H4Parser | `consume (a ++ b) = consume b . consume a` |
| C05 | Address | codec + exact characterisation of accepted strings; deviation from the doc refuted |
| C06 | generate_rpa, IsRpa, IsRpaThatMatchesIrk | AES and the random source are Section variables (any function) |
| C07–C09 | AclConnectionHandler | state machine, invariant by induction; exhausted range refutes termination |
| C10–C12 | PcapFilter | per-field filters over byte lists; GAP bug refuted; rename map history invariant |
| C13 | pcap.h, HciSniffer | byte-level writer and an independent reader |
| C14, C17 | AsyncTaskManager (sequential) | state machine with explicit id counter, invariant |
| C15, C16 | AsyncTaskManager (threads) | small-step interleaving model of the lock operations; witnesses of the race and the deadlock; what does hold is proved |
| C18 | LeController task scheduler | state machine; callbacks are arbitrary op lists |
| C19 | TestModel::GenerateBluetoothAddress | search function with fuel; exhaustion explicit |
| C20 | PhyLayer, PhyDevice, TestModel | state machine, delivery multiset |
| C21, C22 | test channel, link layer socket | stream decoders against encoders, short reads explicit |
| C23–C27 | le_advertiser.cc, le_controller.h | state machine over advertising commands, invariants |
| C28–C34 | le_controller.cc | state machine per list, two-party protocol models for PHY update and subrating |
| C35 | event masks | bit-level functions with undefined shifts explicit |
| C36 | le_apcf.cc | state machine, invariant |
| C37 | sco_connection.cc | pure functions over Z |
| C38 | baseband_sniffer.cc | finite sweep lifted to all bytes, plus linearity |
| C40 | TestModel, PhyLayer (topology commands) | state machine over test channel commands, invariant |
| C41–C44 | TestCommandHandler | request/response functions over byte strings, timer state machine |
| C45 | LE initiating | invariant over LE controller histories |
| C46 | baseband_sniffer.cc, bredr_bb_packets.pdl | byte-level writer and an independent reader |
| C47–C49 | le_controller.cc | two controllers and the packets between them (LeLink), invariants over all interleavings |
| C39, C50–C53 | le_controller.cc:2311–3936, le_cs_parameters.h | two controllers and the channel sounding packets between them (Cs), standing of a configuration told from the history, invariants over all interleavings |
| C54–C64 | rust/src/llcp/iso.rs, rust/src/llcp/manager.rs | one link layer under host commands, links and packets (Iso), what the host was told as a function of the history (IsoSpec), invariants over all histories, refinement between two ends for the exchange |
| C65–C67 | le_controller.cc: filter policies of scanning, initiating and advertising | policy, peer and data in force as functions of the history (LeFilterSpec), per-packet analysis of every receive path (LeFilter, LeFilterMore), then all histories (LeFilterInv, LeFilterAdv, LeFilterInit); the packets that must be reported or answered: LeReport, for all kinds of packets and commands |
| C68–C72 | bredr_controller.cc, acl_connection_handler.cc, acl_connection.cc | one controller under host commands, data, packets and ticks (Bredr); an abstract machine of links and pages that explains every step (BredrSpec, BredrRefine), counts of events over histories (BredrCount), timing of the task queue (BredrTime, BredrLive, BredrWatch), order of the data (BredrData) |
| C73–C76 | le_advertiser.cc LeAdvertising, le_controller.cc LeScanning and reports | what the host asked as functions of the history (LeTimeSpec); invariants on the timeouts of sets (LeTime), a potential argument on the event counters and legacy advertising (LeTimeCount), a relation of all changes of the scanner, duplicates and pieces (LeTimeScan) |
| C77 | le_advertiser.cc enabling, le_controller.cc scanning and initiating addresses | the addresses and kinds asked for as functions of the history, `obeys` says which address fits (LeOwnSpec); invariant: enabled advertisers keep an address chosen at an earlier enabling, requests choose one each time (LeOwn, LeOwnInit); sets whose periodic advertising runs keep the address of their last enabling, also while disabled (LeOwnTrainSpec, LeOwnPeriodic) |
| C78, C79 | rust/src/lmp/ec.rs | the integers of num-bigint as Z, panics as None (Ec); the curves of FIPS 186 with chord and tangent addition of affine points (EcSpec); Jacobian doubling and addition proved correct modulo the prime, the extended Euclidean algorithm proved total, then the loop over the bits (EcProofs) |
| C80–C86 | rust/src/lmp/manager.rs, procedure/*.rs, the callbacks of bredr_controller.cc | each async procedure as a finite tree of waits, sends and reads (Lmp); one automaton per property over the actions of one procedure on one link (LmpSpec); a procedure `fits` an automaton if every path of its tree does, which is kept by polling, ticking and all other calls (LmpProofs, LmpFits); order of answers and packets by conservation of the queues (LmpManager); deafness and absence of hangs (LmpLive); safety as a predicate on trees (LmpSafe) |
| C87–C92 | dual_mode_controller.cc dispatch, handlers and data; controller_properties.cc SupportedCommands | the two command tables and the kind of each handler extracted once from the source (HciTables); the dispatch with the controllers behind as an oracle (Hci); positions of the mask, settings and expected answers written down from the Core Specification (HciSpec); case analysis over the kinds of handlers, finite sweeps over the tables, induction over histories (HciProofs, HciHistory); every command is settled once, whatever it is (HciAccountSpec, HciAccount); all positions of the mask, those of the commands that are not in the list of HciSpec taken from the packet definitions (HciMaskSpec, HciMask) |
| C93–C97 | le_controller.cc HandleAcl, HandleIso, the packets of a connection, CheckExpiringConnection and the task queue; le_acl_connection.cc | one controller with its tasks as a queue sorted by time, surroundings (streams, masks) given afresh to each step (LeData); what the host asked as a function of the history, units and their fragments, a host that reads fragments (LeDataSpec); the queue as a list that steps append to (LeDataProofs, LeDataMore), each link has a check due in time (LeDataWatch, LeDataTell); two controllers with an invariant that follows a ping from its request to its answer (LeDataPair) |
| C98 | bredr_controller.cc the commands about a remote device and the packets that answer them | two controllers of the model Bredr with first-in first-out channels and packets of third devices (BredrPairSpec); exactly which jobs each operation adds to the queue (BredrFlow), so the packets under way form a list that steps append to and take from (BredrPair); told ++ answers under way ++ questions under way is what was asked (BredrRemote), for subversions that fit the 8 bits of the packet |
| C99 | bredr_controller.cc SwitchRole, the role switch packets, the roles at connection setup | each step changes the role of a link only by a permitted request or a successful answer of its peer (BredrRole); the parity of the agreements under way tells whether the roles are opposite, and events told ++ still to tell is counted against commands and requests (BredrRoles) |
| C100 | bredr_controller.cc SetupSynchronousConnection, AddScoConnection, Accept/RejectSynchronousConnection, the Sco packets, SendScoToRemote; sco_connection.cc | every step of one controller is one of eight turns of a small protocol (BredrSync, BredrSyncPair); the two ends and the packets under way are always in one of sixteen phases, preserved by each turn, and each turn settles what it asks for (BredrSyncPair, BredrCalls); voice written = heard ++ under way (BredrVoice) |
| C101 | bredr_controller.cc Inquiry, InquiryCancel, the periodic Inquiry(), IncomingInquiryPacket, IncomingInquiryResponsePacket | the running inquiry and its packets are functions of the history (BredrInquirySpec); a tick leaves exactly the packet that is due (BredrInquiry); packets heard ++ under way = packets of the inquiries, results ++ under way = answers to those heard, by induction on the runs of two controllers (BredrFind) |
| C102 | every operation of bredr_controller.cc with the ASSERTs of acl_connection_handler.cc, sco_connection.cc and the link manager table as outcomes | `fatal` (BredrFailSpec.v) lists ten situations; `C102_fails_exactly_partial` proves, from the invariants of all histories, that a call fails if and only if it is in one of them, with the same kind of failure. Missing: states with a link to the all zero address. Each danger is reached by a concrete run. The model was corrected for this: a refusal of a connection whose audio flows runs the ASSERT of the destructor (sco_connection.cc:31) |
| C103 | the packetizer, the socket transport, HciDevice, PosixAsyncSocket and the life of the device in the test model (Transport.v); the controller and the operating system are oracles | an invariant over all histories relates what was written, what was read and the deliveries; with the stream specification of C01-C04 (`parses`) it gives what the controller receives. Not modelled: the destructors of a removed device |
| C104 | le_controller.cc the questions about the other end of an LE connection and the packets that answer them, LE Read PHY, LE Set Host Feature, LE Set Data Length, the transmit power commands | two ends with first-in first-out channels (LeLink); the answers given ++ the answers under way ++ the questions under way are what was asked while both ends are up (LeAsk); the features a controller tells are fixed while it has the connection; the PHYs of an end are those of the last event |
| C105 | le_controller.cc creation and end of LE connections, as seen by the host (LeInitiate, LeHost) | the connections and the attempts are computed from the entries of a history alone (LeLedgerSpec); one lemma says what every step does to the connections, to the attempt and to the events (LeLedger), by frames and by the list of the events each step can give |
| C106 | le_controller.cc connection requests, responses and disconnections between two controllers (LeHost twice, two queues: LePairSpec) | a lemma lists what every step does to the connections and to the packets about connections (LePair); for every pair of addresses the connections of both sides and the two words of packets under way are in one of eight cases, preserved by every move (LePairAgree); the end of the advertising that accepted a connection by cases on the request (LeStops) |
| C107 | async_manager.cc AsyncFdWatcher (FdWatch: one step for every critical section, atomic access and system call of the clients, the thread, the callbacks) | an invariant of all runs (FdWatchProofs: who wakes the thread) and of the rounds of a run (FdWatchCalls); explicit runs of the thread from every place (FdWatchLive); two phases, up and going down, for careful clients (FdWatchStop) |
| C108 | controller_properties.cc constructor from a configuration, its tables and presets (Config, generated row by row from the source), composed with the HCI front end (Hci) and the random address of le_controller.cc | induction over the switches in the order of the constructor for masks and feature bits; sweeps over the tables of commands, lifted; the command dispatch lemmas of C87-C89 for what the host observes (ConfigProofs) |
| C109 | commands and packets of periodic advertising synchronisation (LeLists, LeScan), in the LE controller as a whole (LeHost); not modelled: LeSynchronization, which nothing calls | ledger kept by the host from events and statuses, equal to the state by induction over histories; effect of one packet by cases; least unused handle by pigeonhole; composition of two controllers with C24; refutations by concrete histories |
| C110 | test_environment.cc, posix_async_socket_server.cc, the opening and closing of the test channel (test_channel_transport.cc) and the devices of clients in test_model.cc, as three threads whose uses of the simulation take time, over the simulation of C19, C20 and C44 and the commands of C43 (Server); not modelled: port numbers, pcap files, the filter, the option that stops the reuse of addresses | ledger of accepted hosts by induction over the events; invariant that ties devices to sockets; invariant on the stage of the setup for the first topology and the absence of races; refutations by concrete interleavings (ServerProofs, ServerClients, ServerTest, ServerWitness) |
| C111 | phy_layer.cc, phy_device.cc and the ticks of test_model.cc as a stack of calls in progress over arbitrary devices; beacons, controllers (their scheduler is C18) and the devices of link layer clients as three kinds of device (Channel), on the topologies of C20; not modelled: changes of the topology during a delivery, packets that do not parse, transmit power | invariant: heard ++ still to be delivered = what had to be heard, as multisets for all devices and as lists for those that do not send from within a reception (shape of the stack); accessibility of the states by induction over programs for the end of a tick; invariant over histories for beacons |
| C112 | the LE controller of C60–C75 (LeHost); MaskViewSpec says what two hosts with different masks must see alike | relation between two runs: each procedure commutes with replacing the masks, up to the events that not both hosts unmask; lifted over histories. The exact set of events follows with C35, comparing with a host that masks nothing |
| C113 | posix_async_socket.cc and posix_async_socket_connector.cc over a table of descriptors, with the answers of the kernel as inputs and a number for each open file (Socket.v); SocketSpec says from the calls alone who holds which file | an invariant over all histories relates the descriptor of each socket to the file it was given, the open files and the closes so far; a second one, without moves, the table of the watcher. Callbacks after a move, a stale errno, descriptor 0 and interrupted polls are refuted |
| C114 | the LE controller of C60–C75 (LeHost); LePaceSpec says from the history when legacy advertising last sent, LeEventsSpec how many packets were sent since a set was enabled | invariants over all histories: the next event of an enabled set is the time it was enabled plus the packets sent times the interval given; that of legacy advertising is the last packet plus the interval; that of a train (LePaceTrainSpec) is the time it was enabled plus the packets sent times the interval |

## Trusted base

* The Coq 8.16.1 kernel and its VM (`vm_compute`).
* The axioms printed by `Print Assumptions` under every property theorem. Every
  one prints "Closed under the global context": no axiom is used. (The loaded
  libraries declare the axioms of `Coq.ssr.ssrunder`; no theorem depends on them.)
* The reading of the C++ and Rust sources into the model. The simplifications
  are stated at the definitions and collected here.

### Oracles

Section variables, over which the theorems are universally quantified: the AES
function `aes` (with `cipher_ok` where a theorem needs a block of sixteen bytes),
the results of `std::rand` (`rng`), the order of iteration over hash maps
(`pick`, and `order`, any permutation, for the table of synchronous connections),
overflow checks of Rust on or off (`checked`), the controllers behind the HCI front
end (`inner`) and the strictness of the packet views (`exact`), the advertising state
and features read through callbacks (`env`), the times of the calls.

### What each module leaves out

| module | left out or simplified |
|--------|------------------------|
| H4 | the read system call: chunks are arbitrary byte lists |
| Address, Rpa | nothing of the functions cited; four random draws per address |
| Handles | SCO and ACL objects reduced to what the handle functions read |
| PcapFilter | the PDL codecs of the packets it rewrites: fields at fixed offsets, read by hand from the PDL files |
| Sniffer | little-endian host; file system errors |
| AsyncTasks, AsyncThreads | lock granularity steps; condition variable wake-ups as enabled steps; stopping the thread and the file descriptor watcher |
| PhyModel | identifiers do not wrap at 2^32; the validity check in Receive |
| TestChannel, TestCommand | end of file and read errors; texts of responses |
| Le* | privacy mode (never read by the code), secondary_max_skip, CTE; unordered maps iterate in list order; scheduled sends shown at once; the link layer callbacks |
| EventMask | nothing of the functions cited |
| Scheduler | callbacks are arbitrary finite sequences of calls; fewer than 2^32-1 tasks |
| Baseband | layout of the PDL packet read by hand; 5 bit size modulo 32 |
| Apcf | the codec of the commands; opaque parameters |
| Sco | comparisons of bandwidths with exact rationals instead of doubles |
| LeLink | in order, lossless delivery; no second connection of the same two addresses; supervision timeout |
| Cs | in order delivery; capability fields that are never read, key material; of the event masks only the one of procedure enable |
| Bredr | the clock is read once per step; the LMP procedures (only the slots of the link manager are kept); transmission powers; commands that only read or write settings never looked at; codecs |
| Iso | enumerations hold declared values except where stated; widths of packed fields are checked as by the generated code; constants that are never read |
| Lmp | packets and commands are abstract values: bytes that do not parse are dropped by the code and are not inputs here; each callback answers as the environment of the call says, any function; the actions are tagged with the procedure that does them, which the host does not see |
| Hci | the controllers behind the front end are an oracle giving status, return parameters and other events; packet views as sequences of field sizes, with bytes left over rejected or not (both are covered); ISO data; enumerations hold any byte |
| Ec | num-bigint and num-integer read by hand: truncating division, two's complement little endian conversion, shifts; rand as arbitrary bytes |
| LeData | the clock is read once per step; tasks scheduled while tasks run wait for the next tick; RSSI; the other packets of a connection only count as heard; in the theorems on two controllers what is sent arrives at once |

### Not modelled

The construction of the controller properties from a configuration, the return
parameters of commands that only read properties, the sockets of `net/posix`, the Python scripts and the PDL code generator.
