{"id": "C01", "title": "H4 receive path reproduces the transmitted packet sequence", "statement": "For every sequence of well-formed HCI packets (command, ACL, SCO, event, ISO), feeding the concatenation of their H4 encodings to the H4 parser, with each read no larger than the parser asked for, hands exactly those packets, in order, with exactly their bytes (without the H4 type byte) to the callback registered for their type, and leaves the parser ready for the next packet.", "quantifier": "all packet lists, all packet types, all payload lengths allowed by the length field, all ways of splitting the stream into reads bounded by BytesRequested", "why_tests_cant": "packet lists, payload lengths (up to 65535) and split points are unbounded; unit tests feed a handful of fixed packets", "anchors": ["model/hci/h4_parser.cc:H4Parser::Consume", "model/hci/h4_parser.h:H4Parser::BytesRequested", "model/hci/h4_parser.cc:HciGetPacketLengthForType", "model/hci/h4_data_channel_packetizer.cc:H4DataChannelPacketizer::Send"]}
{"id": "C02", "title": "H4 parser never swallows bytes of the next packet and always makes progress", "statement": "In every state reachable through its API the parser requests at least one byte; as long as the caller respects the request, Consume never aborts in recovery mode, and the total number of bytes it asks for before delivering a packet is exactly the size of that packet.", "quantifier": "all byte histories accepted by the parser", "why_tests_cant": "the set of parser states is unbounded (buffered bytes) and over-reads depend on history", "anchors": ["model/hci/h4_parser.h:H4Parser::BytesRequested", "model/hci/h4_parser.cc:H4Parser::Consume"]}
{"id": "C03", "title": "H4 resynchronisation after a framing error", "statement": "With recovery enabled, after an invalid packet type byte the parser delivers nothing until the byte string 01 03 0c 00 (HCI Reset) has been received contiguously, at which point it delivers exactly the Reset command and resumes normal parsing; no matter how much garbage precedes it, the first occurrence is recognised.", "quantifier": "all garbage byte strings before the reset sequence and all valid streams after it", "why_tests_cant": "garbage is arbitrary; self-overlapping prefixes such as 01 01 03 0c 00 are easy to miss", "anchors": ["model/hci/h4_parser.cc:H4Parser::Consume", "model/hci/h4_parser.h:H4Parser::State"]}
{"id": "C04", "title": "H4 parser reads are independent of how the transport splits the stream", "statement": "Splitting a read into several smaller reads never changes the packets delivered nor the final parser state.", "quantifier": "all byte strings, all reachable parser states, all split points", "why_tests_cant": "exponentially many splits of each stream", "anchors": ["model/hci/h4_parser.cc:H4Parser::Consume"]}
{"id": "C05", "title": "Bluetooth address text form round-trips and parsing accepts only addresses", "statement": "Printing any 48-bit address and parsing the text gives back the address; parsing accepts exactly the documented XX:XX:XX:XX:XX:XX hexadecimal form.", "quantifier": "all addresses, all strings", "why_tests_cant": "2^48 addresses and infinitely many strings", "anchors": ["lib/hci/address.cc:Address::ToString", "lib/hci/address.cc:Address::FromString", "include/hci/address.h"]}
{"id": "C06", "title": "Resolvable private addresses resolve exactly with the key that generated them", "statement": "Every address produced by the controller from an identity resolving key is recognised as a resolvable private address and resolves with that key; an address that is not of the resolvable form never resolves.", "quantifier": "all keys, all random parts, all addresses, for any block cipher", "why_tests_cant": "keys and random parts are 128 and 24 bits", "anchors": ["model/controller/le_controller.cc:LeController::generate_rpa", "include/hci/address_with_type.h:IsRpaThatMatchesIrk"]}
{"id": "C07", "title": "Connection handles are unique and in the range of their link type", "statement": "At any time the handles of live BR/EDR ACL, SCO and LE connections are pairwise distinct, each lies in the range reserved for its type, and a newly created connection never reuses a handle that is still live.", "quantifier": "all sequences of connection creations and disconnections", "why_tests_cant": "needs long histories with wrap-around of the 256 entry handle ranges", "anchors": ["model/controller/acl_connection_handler.cc", "model/controller/connection_handle.h"]}
{"id": "C08", "title": "Creating a connection always terminates", "statement": "Allocating a connection handle returns for every set of live connections.", "quantifier": "all reachable sets of live handles, including the exhausted range", "why_tests_cant": "requires 256 simultaneously open links of one type", "anchors": ["model/controller/acl_connection_handler.cc:AclConnectionHandler::GetUnusedHandle"]}
{"id": "C09", "title": "Disconnecting a handle removes that connection and only that connection", "statement": "A disconnection reports success exactly when the handle is live; afterwards the handle is unknown and every other connection is untouched.", "quantifier": "all reachable connection tables and all handles", "why_tests_cant": "interleavings of three link types sharing one handler", "anchors": ["model/controller/acl_connection_handler.cc:AclConnectionHandler::Disconnect"]}
{"id": "C10", "title": "The capture filter preserves packet sizes", "statement": "The HCI capture filter returns a packet of the same type and the same length as its input for every well-formed packet it filters.", "quantifier": "all commands, events and data packets accepted by the filter, all name contents", "why_tests_cant": "payload contents and lengths are arbitrary", "anchors": ["lib/hci/pcap_filter.cc", "include/hci/pcap_filter.h"]}
{"id": "C11", "title": "The capture filter leaks no user data", "statement": "After filtering, no byte of a device name (in commands, events, or advertising/EIR GAP data) and no byte of ACL, SCO or ISO payload of the original packet survives, and no byte outside these fields is modified.", "quantifier": "all GAP data strings, all names, all payloads", "why_tests_cant": "the position of the name structure within GAP data is arbitrary", "anchors": ["lib/hci/pcap_filter.cc:FilterGapData", "lib/hci/pcap_filter.cc:PcapFilter::FilterHciAcl"]}
{"id": "C12", "title": "The capture filter renames consistently", "statement": "Within one capture the same device name is always replaced by the same pseudonym, and the pseudonym never depends on packets seen later.", "quantifier": "all histories of filtered names", "why_tests_cant": "depends on the whole history of names seen", "anchors": ["lib/hci/pcap_filter.cc:PcapFilter::ChangeDeviceName"]}
{"id": "C13", "title": "Captured records can be read back", "statement": "The record written for every packet sent or received by the sniffer is parsed back by a PCAP H4-with-PHDR reader to the same direction, packet type and bytes, and consecutive records do not overlap.", "quantifier": "all packet sequences and directions, all time stamps", "why_tests_cant": "record boundaries depend on every previous record", "anchors": ["include/pcap.h", "model/hci/hci_sniffer.cc:HciSniffer::AppendRecord"]}
{"id": "C14", "title": "Asynchronous tasks: unique identifiers, run in time order, never early, one-shot tasks at most once", "statement": "Every task accepted by the asynchronous manager gets a non-zero identifier different from that of every pending task; a task never runs before its time; among pending tasks the earliest runs first; a one-shot task runs at most once, and a task cancelled before the worker picked it never runs.", "quantifier": "all sequences of schedule, cancel and clock advances", "why_tests_cant": "histories longer than the 16 bit identifier space are needed to exercise identifier reuse", "anchors": ["model/setup/async_manager.cc:AsyncManager::AsyncTaskManager"]}
{"id": "C15", "title": "Cancelling an asynchronous task guarantees its callback is not running afterwards", "statement": "Once CancelAsyncTask has returned, the callback of that task is not being executed and will not be executed any more (documented guarantee).", "quantifier": "all interleavings of the worker thread with cancelling threads", "why_tests_cant": "the failing window is a few instructions wide", "anchors": ["model/setup/async_manager.h:CancelAsyncTask", "model/setup/async_manager.cc:AsyncTaskManager::ThreadRoutine"]}
{"id": "C16", "title": "Asynchronous task manager does not deadlock", "statement": "No interleaving of scheduling, cancelling and task execution, where callbacks may themselves schedule or cancel tasks, blocks all threads.", "quantifier": "all schedules and all callback programs", "why_tests_cant": "needs a precise interleaving of three lock operations", "anchors": ["model/setup/async_manager.cc:AsyncTaskManager::CancelAsyncTask", "model/setup/async_manager.cc:AsyncTaskManager::ThreadRoutine"]}
{"id": "C17", "title": "Cancelling all tasks of a user affects only that user", "statement": "CancelAsyncTasksFromUser cancels every pending task of the given user and no task of any other user.", "quantifier": "all histories of scheduling and cancelling, including identifier wrap-around", "why_tests_cant": "requires 65535 scheduled tasks before the stale identifier is reused", "anchors": ["model/setup/async_manager.cc:AsyncTaskManager::CancelAsyncTasksFromUser"]}
{"id": "C18", "title": "The controller's internal scheduler", "statement": "Tasks scheduled inside a controller run only from Tick, never before their delay has elapsed, in time order, one-shot tasks exactly once, periodic tasks at most once per Tick; a cancelled task never runs; identifiers of live tasks are unique.", "quantifier": "all sequences of schedule, cancel and tick operations, including those issued by running tasks", "why_tests_cant": "callbacks may schedule and cancel recursively", "anchors": ["model/controller/le_controller.cc:LeController::RunPendingTasks", "model/controller/le_controller.cc:LeController::ScheduleTask"]}
{"id": "C19", "title": "Automatically generated device addresses are unused", "statement": "The address generated for a new device differs from the address of every device already present, and generation terminates whenever a free address exists.", "quantifier": "all device populations", "why_tests_cant": "65536 candidate addresses", "anchors": ["model/setup/test_model.cc:TestModel::GenerateBluetoothAddress"]}
{"id": "C20", "title": "The simulated radio delivers each transmission to exactly the other devices on the same physical channel", "statement": "A packet sent by a device on a PHY is received exactly once by each other device attached to a PHY layer of the same type, never by the sender and never by a detached device.", "quantifier": "all sequences of attach, detach, remove and send operations", "why_tests_cant": "topology histories are unbounded", "anchors": ["model/setup/phy_layer.cc", "model/setup/phy_device.cc", "model/setup/test_model.cc"]}
{"id": "C21", "title": "Test channel commands are decoded as encoded", "statement": "Every command (name and arguments each up to 255 bytes, at most 255 arguments) encoded on the test channel is decoded to the same name and argument list.", "quantifier": "all names and argument lists", "why_tests_cant": "argument counts and lengths are arbitrary", "anchors": ["model/setup/test_channel_transport.cc:TestChannelTransport::OnCommandReady"]}
{"id": "C22", "title": "Link layer socket framing is lossless under partial reads", "statement": "The byte stream produced by a link layer socket device for a packet sequence is decoded by the peer's device to the same packet sequence for every way the socket splits the stream.", "quantifier": "all packet sequences and all schedules of short reads", "why_tests_cant": "short reads of the 4 byte header almost never happen in tests", "anchors": ["model/devices/link_layer_socket_device.cc:LinkLayerSocketDevice::Tick"]}
{"id": "C23", "title": "Legacy and extended advertising commands are mutually exclusive between resets", "statement": "Between two resets, once any legacy advertising, scanning or connection command has been accepted or attempted first, every extended one is rejected with Command Disallowed and changes nothing, and vice versa.", "quantifier": "all command sequences", "why_tests_cant": "unbounded interleavings of about thirty commands", "anchors": ["model/controller/le_controller.h:SelectLegacyAdvertising", "model/controller/le_controller.h:SelectExtendedAdvertising"]}
{"id": "C24", "title": "Advertising data is stored as provided and within capacity", "statement": "For every history of commands, the advertising, scan response and periodic advertising data of a set never exceeds the controller's maximum, a complete fragment sequence stores the concatenation of its fragments, every advertising packet carries exactly the stored data, and a rejected fragment leaves the data as it was unless it is rejected for lack of room, in which case the data is discarded.", "quantifier": "all sequences of data commands, fragments and parameter changes", "why_tests_cant": "fragment sequences are unbounded", "anchors": ["model/controller/le_advertiser.cc:LeController::LeSetExtendedAdvertisingData", "model/controller/le_advertiser.cc:LeController::LeSetPeriodicAdvertisingData"]}
{"id": "C25", "title": "Advertising is only ever enabled with complete and valid data, and enabling is all or nothing", "statement": "Whenever an advertising set is enabled its advertising and scan response data are complete; an Extended Advertising Enable command that returns an error leaves every set as it was.", "quantifier": "all command histories, all lists of sets in one command", "why_tests_cant": "combinations of sets, parameters and data fragments", "anchors": ["model/controller/le_advertiser.cc:LeController::LeSetExtendedAdvertisingEnable"]}
{"id": "C26", "title": "The advertising routine never hits its fatal assertion", "statement": "No sequence of HCI commands makes the periodic advertising routine reach the FATAL 'unexpected raw advertising event properties' exit or a failed assertion.", "quantifier": "all command histories and tick times", "why_tests_cant": "needs all parameter combinations over all histories", "anchors": ["model/controller/le_advertiser.cc:LeController::LeAdvertising", "model/controller/le_advertiser.cc:LeController::LeSetExtendedAdvertisingParameters"]}
{"id": "C27", "title": "Advertising sets in use cannot be removed", "statement": "Removing or clearing advertising sets is rejected while advertising or periodic advertising is enabled on a concerned set, and otherwise removes exactly the requested sets.", "quantifier": "all command histories", "why_tests_cant": "combination of periodic and non-periodic enable state", "anchors": ["model/controller/le_advertiser.cc:LeController::LeRemoveAdvertisingSet", "model/controller/le_advertiser.cc:LeController::LeClearAdvertisingSets"]}
{"id": "C28", "title": "Filter accept list behaves as a bounded set that is frozen while in use", "statement": "The filter accept list never exceeds its advertised size; an accepted add makes the device accepted, an accepted remove makes it not accepted and affects no other device; while any enabled activity uses the list every modification is rejected and changes nothing.", "quantifier": "all command histories", "why_tests_cant": "histories with duplicates and all activity combinations", "anchors": ["model/controller/le_controller.cc:LeController::LeAddDeviceToFilterAcceptList", "model/controller/le_controller.cc:LeController::FilterAcceptListBusy"]}
{"id": "C29", "title": "Resolving list identities and keys are unique, bounded and frozen while in use", "statement": "At any time the resolving list holds no two entries with the same identity address or the same non-zero peer key, at most the advertised number of entries, and modifications are rejected while address resolution is enabled and advertising, scanning, initiating or a periodic sync creation is pending.", "quantifier": "all command histories", "why_tests_cant": "combinations of activities and list operations", "anchors": ["model/controller/le_controller.cc:LeController::LeAddDeviceToResolvingList", "model/controller/le_controller.cc:LeController::ResolvingListBusy"]}
{"id": "C30", "title": "Periodic advertiser list behaves as a bounded set frozen while a sync is pending", "statement": "The periodic advertiser list has no duplicates, never exceeds its advertised size, membership is exactly additions minus removals, and no modification is accepted while a create sync command is pending.", "quantifier": "all command histories", "why_tests_cant": "unbounded histories", "anchors": ["model/controller/le_controller.cc:LeController::LeAddDeviceToPeriodicAdvertiserList"]}
{"id": "C31", "title": "Scan parameters in force are always valid and bound to the PHY they were given for", "statement": "Whenever scanning is enabled the window does not exceed the interval and both are in the range of the specification, and each PHY uses the parameters supplied for that PHY.", "quantifier": "all extended and legacy scan command histories", "why_tests_cant": "PHY masks times parameter lists", "anchors": ["model/controller/le_controller.cc:LeController::LeSetExtendedScanParameters", "model/controller/le_controller.cc:LeController::LeSetScanParameters"]}
{"id": "C32", "title": "Connection initiation only proceeds with consistent link parameters", "statement": "Whenever the controller is initiating, the parameters of every enabled PHY satisfy the ranges of the specification and the supervision timeout is larger than (1+latency)*interval_max*2.", "quantifier": "all parameter combinations", "why_tests_cant": "six 16 bit parameters", "anchors": ["model/controller/le_controller.cc:LeController::LeCreateConnection", "model/controller/le_controller.cc:LeController::LeExtendedCreateConnection"]}
{"id": "C33", "title": "Connection subrating: both ends agree and admissible requests are accepted", "statement": "When a central accepts a subrate request both ends store the same factor, latency, continuation number and timeout, within the bounds of both sides; a request that satisfies the specification's validity rule and the central's acceptance bounds is accepted.", "quantifier": "all parameters on both sides, all connection intervals", "why_tests_cant": "ten 16 bit parameters", "anchors": ["model/controller/le_controller.cc:LeController::LeSubrateRequest", "model/controller/le_controller.cc:LeController::IncomingLlSubrateReq"]}
{"id": "C34", "title": "PHY update leaves both ends of a link using the same PHYs", "statement": "After a PHY update procedure completes, the transmit PHY of each end equals the receive PHY of the other end, and each chosen PHY was allowed by both ends or left unchanged.", "quantifier": "all preferences of both ends, both roles as initiator", "why_tests_cant": "all mask combinations and procedure sequences", "anchors": ["model/controller/le_controller.cc:LeController::IncomingLlPhyReq", "model/controller/le_controller.cc:LeController::IncomingLlPhyRsp", "model/controller/le_controller.cc:LeController::IncomingLlPhyUpdateInd"]}
{"id": "C35", "title": "Event masks suppress exactly the masked events", "statement": "An event is delivered to the host only when its bit is set in the event mask that governs it, each event code is governed by the bit the specification assigns to it, and testing a mask never performs an undefined shift.", "quantifier": "all event codes and all mask values", "why_tests_cant": "2^64 masks times 256 codes", "anchors": ["model/controller/le_controller.cc:LeController::IsEventUnmasked", "model/controller/le_controller.cc:LeController::IsLeEventUnmasked"]}
{"id": "C36", "title": "APCF filters: indices are unique, capacities respected, dependents removed with their filter", "statement": "For every history of APCF commands filter indices are unique, every condition refers to an existing filter, no list exceeds its capacity, and the number of available spaces reported equals capacity minus usage.", "quantifier": "all APCF command histories", "why_tests_cant": "eight lists evolving together", "anchors": ["model/controller/vendor_commands/le_apcf.cc"]}
{"id": "C37", "title": "Negotiated SCO/eSCO parameters fit the packet types both sides allow", "statement": "Whenever link parameters are derived for a synchronous connection, the chosen packet length fits an allowed packet type, the retransmission window fits in the transmission interval, the latency bound is met, and the interval carries the requested bandwidth.", "quantifier": "all bandwidths, latencies, packet type masks and retransmission efforts", "why_tests_cant": "32 bit bandwidths times 16 bit masks", "anchors": ["model/controller/sco_connection.cc:ScoConnectionParameters::GetLinkParameters"]}
{"id": "C38", "title": "Baseband header error check is the specification's cyclic code", "statement": "The header error check computed for a captured baseband header is the remainder defined by the specification (linear, and detecting all single and double bit errors within the 10 bit header), and bit reversal is an involution.", "quantifier": "all UAP and header values", "why_tests_cant": "finite but the algebraic property is not tested", "anchors": ["model/devices/baseband_sniffer.cc:HeaderErrorCheck", "model/devices/baseband_sniffer.cc:ReverseByte"]}
{"id": "C39", "title": "Channel sounding procedures can be started and stopped by the host", "statement": "A channel sounding procedure can be enabled only for an existing configuration whose parameters were set, cannot be enabled twice, and an enabled procedure can be disabled by the host.", "quantifier": "all command histories on a connection", "why_tests_cant": "state depends on the full command history", "anchors": ["model/controller/le_controller.cc:LeController::LeCsProcedureEnable"]}
{"id": "C40", "title": "Removing devices and physical channels leaves no dangling references", "statement": "After any sequence of adding, removing, attaching, detaching and resetting devices and physical channels, every channel a device sends on still exists and every device a channel delivers to is still present.", "quantifier": "all histories of topology operations", "why_tests_cant": "use after free depends on the order of operations", "anchors": ["model/setup/test_model.cc:TestModel::RemovePhy", "model/setup/test_model.cc:TestModel::RemoveDevice", "model/setup/phy_layer.cc", "model/setup/phy_device.cc"]}
{"id": "C41", "title": "Stopping the timer stops the ticks", "statement": "While the timer runs the model is ticked by exactly one periodic task, with the period last set, and after it is stopped no tick happens.", "quantifier": "all sequences of start, stop and set period", "why_tests_cant": "histories are unbounded", "anchors": ["model/setup/test_model.cc:TestModel::StartTimer", "model/setup/test_model.cc:TestModel::StopTimer", "model/setup/test_model.cc:TestModel::SetTimerPeriod"]}
{"id": "C42", "title": "Test channel responses are read back by the client", "statement": "A response sent on the test channel is framed so that the client reads back the same text (cut at 65535 bytes) and stays synchronised with the next response, and sending a response aborts the simulator only when a write is incomplete.", "quantifier": "all responses and all write outcomes", "why_tests_cant": "sizes and write failures are arbitrary", "anchors": ["model/setup/test_channel_transport.cc:TestChannelTransport::SendResponse"]}
{"id": "C43", "title": "Every test channel command is answered", "statement": "Whatever its name and arguments, a test channel command gets exactly one response and does not crash the simulator.", "quantifier": "all command names and argument lists", "why_tests_cant": "argument lists are arbitrary strings", "anchors": ["model/setup/test_command_handler.cc", "model/setup/device_boutique.cc", "model/devices/beacon.cc"]}
{"id": "C44", "title": "Test channel commands act on the device they name and on nothing else", "statement": "A command naming a device or a physical channel affects only that one, a command with a malformed or unknown target has no effect on the topology.", "quantifier": "all reachable topologies and all argument strings", "why_tests_cant": "number parsing and topology histories are unbounded", "anchors": ["model/setup/test_command_handler.cc", "model/setup/test_model.cc"]}
{"id": "C45", "title": "LE connection requests carry the parameters the host asked for", "statement": "A connection request is sent only while the host's connection creation is pending, and carries the maximum interval, latency and supervision timeout the host gave in the latest accepted command.", "quantifier": "all command and packet histories", "why_tests_cant": "parameters are selected among PHYs by earlier commands", "anchors": ["model/controller/le_controller.cc:LeController::ConnectIncomingLeLegacyAdvertisingPdu", "model/controller/le_controller.cc:LeController::ConnectIncomingLeExtendedAdvertisingPdu"]}
{"id": "C46", "title": "A baseband capture shows every page and LMP packet with its sender", "statement": "For any sequence of link layer packets received by the baseband sniffer, the capture file is read back to exactly one record for each page and each LMP packet, in order; each record has a valid baseband header for the sender, the sender address parts, and the payload of the packet.", "quantifier": "all sequences of packets, addresses, classes of device and LMP payloads", "why_tests_cant": "byte level file format over unbounded sequences", "anchors": ["model/devices/baseband_sniffer.cc:BaseBandSniffer::ReceiveLinkLayerPacket", "packets/bredr_bb_packets.pdl"]}
{"id": "C47", "title": "Both ends of an LE connection use the same connection parameters", "statement": "Whenever no link layer packet is on its way to the peripheral, the connection interval, latency and supervision timeout in use at the two ends are equal.", "quantifier": "all histories of host commands at both ends and packet deliveries, for all parameters", "why_tests_cant": "requests, replies and updates of the two hosts interleave arbitrarily", "anchors": ["model/controller/le_controller.cc:LeController::LeConnectionUpdate", "model/controller/le_controller.cc:LeController::IncomingLeConnectionParameterUpdate"]}
{"id": "C48", "title": "An LE connection is encrypted at both ends or at none, and only with the same key", "statement": "When the host of the central starts the encryption and the host of the peripheral supplies a key, the connection becomes encrypted at the central only if the keys are equal, and when no packet is on its way either both ends are encrypted or none is.", "quantifier": "all histories of host commands at both ends and packet deliveries, for all keys", "why_tests_cant": "requests and replies of the two hosts interleave arbitrarily", "anchors": ["model/controller/le_controller.cc:LeController::LeEnableEncryption", "model/controller/le_controller.cc:LeController::LeLongTermKeyRequestReply", "model/controller/le_controller.cc:LeController::IncomingLeEncryptConnectionResponse"]}
{"id": "C49", "title": "A disconnection closes both ends and is reported exactly once to each host", "statement": "Once packets are delivered a connection exists at both ends or at none; each host gets at most one disconnection event, gets none while the connection exists, and exactly one once it is closed if it has not masked it; afterwards the closed end reports nothing and sends nothing about the connection; no sequence of commands and deliveries aborts a controller.", "quantifier": "all histories of host commands at both ends and packet deliveries", "why_tests_cant": "simultaneous disconnections and packets in flight", "anchors": ["model/controller/le_controller.cc:LeController::Disconnect", "model/controller/le_controller.cc:LeController::IncomingDisconnectPacket"]}
{"id": "C50", "title": "Channel sounding never crashes a controller", "statement": "No sequence of host commands and link layer packets of channel sounding makes either controller abort.", "quantifier": "all histories of host commands at both ends and packet deliveries, for all capabilities and event masks", "why_tests_cant": "the commands of two hosts interleave with the packets arbitrarily", "anchors": ["model/controller/le_controller.cc:LeController::IncomingLlCsRsp", "model/controller/le_controller.cc:LeController::IncomingLlCsInd", "model/controller/le_controller.cc:LeController::IncomingLlCsReq"]}
{"id": "C51", "title": "Channel sounding configurations are valid and supported by both controllers", "statement": "A configuration is created exactly when its parameters are in the ranges of the specification, its channel map has at least fifteen channels and none that is reserved, its role is enabled and both controllers support it; at any time every stored configuration and every announced channel map is valid.", "quantifier": "all histories of host commands at both ends and packet deliveries, for all parameters and capabilities", "why_tests_cant": "the parameter space is large and later channel classifications change stored configurations", "anchors": ["model/controller/le_controller.cc:LeController::LeCsCreateConfig", "model/controller/le_controller.cc:LeController::LeCsSetChannelClassification", "model/controller/le_controller.cc:LeController::IncomingLlCsConfigReq"]}
{"id": "C52", "title": "Both ends of a connection agree on the channel sounding configurations", "statement": "After the configuration procedure started by a host has ended, either both controllers have the configuration, with opposite roles, and both hosts are told, or neither has it; a configuration supported by both controllers is accepted; after a removal neither has it.", "quantifier": "all reachable states in which no packet is on its way, all configurations and capabilities", "why_tests_cant": "depends on the history of both ends and on all capabilities", "anchors": ["model/controller/le_controller.cc:LeController::LeCsCreateConfig", "model/controller/le_controller.cc:LeController::LeCsRemoveConfig", "model/controller/le_controller.cc:LeController::IncomingLlCsConfigReq", "model/controller/le_controller.cc:LeController::IncomingLlCsConfigRsp"]}
{"id": "C53", "title": "Channel sounding procedures start only on links made secure for it", "statement": "Success of the channel sounding security procedure is reported only on an encrypted link, and to the host of the central only after the peripheral; a procedure asked for by the peer is accepted, and reported as enabled, only after the security procedure has succeeded.", "quantifier": "all histories of host commands at both ends and packet deliveries", "why_tests_cant": "commands, packets and the encryption procedure interleave arbitrarily", "anchors": ["model/controller/le_controller.cc:LeController::LeCsSecurityEnable", "model/controller/le_controller.cc:LeController::IncomingLlCsSecRsp", "model/controller/le_controller.cc:LeController::IncomingLlCsReq"]}
{"id": "C54", "title": "The isochronous stream link layer never crashes", "statement": "No sequence of host commands and link layer packets of isochronous streams makes the controller abort.", "quantifier": "all histories of host commands, links added and removed, and packets of peers, with and without overflow checks", "why_tests_cant": "the parameters of a group, the order of commands and the packets of peers combine without bound", "anchors": ["rust/src/llcp/iso.rs:IsoManager::hci_le_set_cig_parameters", "rust/src/llcp/iso.rs:IsoManager::hci_le_create_cis", "rust/src/llcp/iso.rs:IsoManager::ll_cis_rsp", "rust/src/llcp/iso.rs:IsoManager::ll_cis_terminate_ind", "rust/src/llcp/iso.rs:IsoManager::deque_cis_connection_request"]}
{"id": "C55", "title": "Stream handles are unique and in their range", "statement": "Every handle given to the host for a connected isochronous stream is in the range reserved for them and differs from every handle in use; each stream of a group has one handle, the one given again when the group is configured again.", "quantifier": "all histories of host commands and packets", "why_tests_cant": "handles are reused after any sequence of removals", "anchors": ["rust/src/llcp/iso.rs:IsoManager::new_cis_connection_handle", "rust/src/llcp/iso.rs:IsoManager::hci_le_set_cig_parameters", "rust/src/llcp/iso.rs:IsoManager::ll_cis_req"]}
{"id": "C56", "title": "A stream handle stays valid until its group is removed", "statement": "A handle returned by LE Set CIG Parameters is known to the controller until the host removes the group, whatever happens to the stream; a command naming any other handle is refused as an unknown connection.", "quantifier": "all histories of host commands and packets", "why_tests_cant": "the stream may be created, refused, terminated by either side and lost with its link in between", "anchors": ["rust/src/llcp/iso.rs:IsoManager::ll_cis_terminate_ind", "rust/src/llcp/iso.rs:IsoManager::hci_disconnect", "rust/src/llcp/iso.rs:IsoManager::hci_le_remove_cig"]}
{"id": "C57", "title": "Every isochronous command is answered once, and a refusal changes nothing", "statement": "Each host command about isochronous streams is answered exactly once, by its own command complete or status event; when it is refused nothing else is sent and the state is unchanged; packets of peers answer no command.", "quantifier": "all commands in all reachable states", "why_tests_cant": "the commands have many error paths", "anchors": ["rust/src/llcp/iso.rs:IsoManager", "rust/src/llcp/manager.rs:LinkLayer::ingest_hci"]}
{"id": "C58", "title": "A group can be configured until its first stream is created and removed when no stream is up", "statement": "After a stream of a group has been asked for, configuring the group is disallowed until it is removed, and it is disallowed for no other reason; removing a group is refused as unknown exactly when it is not configured, succeeds when none of its streams was asked for, and never when one is established.", "quantifier": "all histories of host commands and packets", "why_tests_cant": "depends on the whole history of the group and its streams", "anchors": ["rust/src/llcp/iso.rs:IsoManager::hci_le_set_cig_parameters", "rust/src/llcp/iso.rs:IsoManager::hci_le_remove_cig", "rust/src/llcp/iso.rs:IsoManager::hci_le_create_cis"]}
{"id": "C59", "title": "The ISO interval honours the SDU intervals and the maximum latencies", "statement": "The ISO interval proposed to the peer for a group is a multiple of the SDU interval of each used direction when unframed, and its transport latency is at most the maximum the host gave.", "quantifier": "all SDU intervals, latencies and histories", "why_tests_cant": "the interval results from 32 bit arithmetic over a space of about 2^60 parameters", "anchors": ["rust/src/llcp/iso.rs:iso_interval", "rust/src/llcp/iso.rs:transport_latency"]}
{"id": "C60", "title": "Establishment and disconnection of a stream alternate", "statement": "A stream is reported as established only when it is not already, and as disconnected only when it was established.", "quantifier": "all histories of host commands and packets", "why_tests_cant": "commands cross packets of the peer", "anchors": ["rust/src/llcp/iso.rs:IsoManager::ll_cis_rsp", "rust/src/llcp/iso.rs:IsoManager::ll_cis_ind", "rust/src/llcp/iso.rs:IsoManager::hci_disconnect", "rust/src/llcp/iso.rs:IsoManager::ll_cis_terminate_ind"]}
{"id": "C61", "title": "Stream creation always becomes possible again", "statement": "Once no stream creation is going on, the host can create another stream.", "quantifier": "all histories of host commands and packets", "why_tests_cant": "a creation can end in many ways: answer, refusal, disconnection, termination, loss of the link", "anchors": ["rust/src/llcp/iso.rs:IsoManager::hci_le_create_cis", "rust/src/llcp/iso.rs:IsoManager::deque_cis_connection_request", "rust/src/llcp/iso.rs:IsoManager::hci_disconnect"]}
{"id": "C62", "title": "Both ends of a stream are told the same", "statement": "A stream request carries the parameters the host configured; when the peer accepts it both hosts are told that the stream they created or accepted is established, with the same parameters.", "quantifier": "all pairs of histories of two controllers, all parameters", "why_tests_cant": "depends on the history of both ends and on which of several pending streams an answer is for", "anchors": ["rust/src/llcp/iso.rs:IsoManager::hci_le_create_cis", "rust/src/llcp/iso.rs:IsoManager::ll_cis_req", "rust/src/llcp/iso.rs:IsoManager::ll_cis_rsp", "rust/src/llcp/iso.rs:IsoManager::ll_cis_ind"]}
{"id": "C63", "title": "Isochronous data paths are set up and removed as the host asked", "statement": "A data path of a stream is set up only when that direction has none, and removed only when every direction named has one; a stream has no data path in a direction it does not use.", "quantifier": "all histories of host commands and packets", "why_tests_cant": "depends on all earlier commands on the stream", "anchors": ["rust/src/llcp/iso.rs:IsoManager::hci_le_setup_iso_data_path", "rust/src/llcp/iso.rs:IsoManager::hci_le_remove_iso_data_path"]}
{"id": "C64", "title": "Broadcast groups have handles of their own and one advertising set each", "statement": "A created broadcast group gets as many distinct handles as asked for, in their range and used by no other group; no two groups share an advertising set; valid creations are accepted; a terminated group frees its identifier, set and handles.", "quantifier": "all histories of host commands", "why_tests_cant": "depends on all groups created and terminated before", "anchors": ["rust/src/llcp/iso.rs:IsoManager::hci_le_create_big", "rust/src/llcp/iso.rs:IsoManager::hci_le_terminate_big", "rust/src/llcp/iso.rs:IsoManager::new_bis_connection_handle"]}
{"id": "C65", "title": "The scanning filter policy decides which devices are reported and scanned", "statement": "With an accept list policy, advertising reports and scan requests concern only devices of the filter accept list, after resolution of private addresses; without one every advertisement is reported.", "quantifier": "all histories of host commands, received packets and ticks; all packets", "why_tests_cant": "the policy, the accept list and the resolving list in force are the product of the whole history", "anchors": ["model/controller/le_controller.cc:LeController::IncomingLeLegacyAdvertisingPdu", "model/controller/le_controller.cc:LeController::ScanIncomingLeLegacyAdvertisingPdu", "model/controller/le_controller.cc:LeController::ScanIncomingLeExtendedAdvertisingPdu", "model/controller/le_controller.cc:LeController::IncomingLeScanResponsePacket", "model/controller/le_controller.cc:LeController::LeFilterAcceptListContainsDevice"]}
{"id": "C66", "title": "Connections are initiated only to the device, or the accept list, the host named", "statement": "A connection request goes out only while the host's connection command is pending, in answer to a connectable packet of the peer it named, or of a device of the accept list when it asked for that, and only when a directed packet is directed to this controller; a packet of such a device leads to a request.", "quantifier": "all histories of host commands, received packets and ticks; all packets", "why_tests_cant": "depends on the pending command, both lists and address resolution", "anchors": ["model/controller/le_controller.cc:LeController::ConnectIncomingLeLegacyAdvertisingPdu", "model/controller/le_controller.cc:LeController::ConnectIncomingLeExtendedAdvertisingPdu"]}
{"id": "C67", "title": "The advertising filter policy decides who may scan and connect", "statement": "A scan request is answered, with the scan response data of the set, exactly when an enabled scannable advertiser with that address allows the scanner; a connection request is accepted exactly when an enabled connectable advertiser with that address allows the initiator.", "quantifier": "all histories of host commands, received packets and ticks; all requests", "why_tests_cant": "the policy, target and data in force are the product of the whole history", "anchors": ["model/controller/le_controller.cc:LeController::ProcessIncomingLegacyScanRequest", "model/controller/le_controller.cc:LeController::ProcessIncomingExtendedScanRequest", "model/controller/le_controller.cc:LeController::ProcessIncomingLegacyConnectRequest", "model/controller/le_controller.cc:LeController::ProcessIncomingExtendedConnectRequest"]}
{"id": "C68", "title": "Every Create Connection is answered by exactly one Connection Complete", "statement": "Each HCI Create Connection that returns success is followed by exactly one HCI Connection Complete for that device (success, refusal, cancellation or page timeout), at the latest by the first tick after the page timeout, if the host keeps the event unmasked, does not reset, and does not answer a connection request of the same device.", "quantifier": "all histories of host commands, host data, received packets and ticks, with a clock that does not go back", "why_tests_cant": "the answer may come from four different paths, scheduled and interleaved with everything else", "anchors": ["model/controller/bredr_controller.cc:BrEdrController::CreateConnection", "model/controller/bredr_controller.cc:BrEdrController::CreateConnectionCancel", "model/controller/bredr_controller.cc:BrEdrController::IncomingPageResponsePacket", "model/controller/bredr_controller.cc:BrEdrController::IncomingPageRejectPacket", "model/controller/bredr_controller.cc:BrEdrController::Paging"]}
{"id": "C69", "title": "Connection and Disconnection Complete tell the host exactly the links that exist", "statement": "At any time at most one link per peer is open and all handles differ and are in range; for each handle, the successful Connection Completes sent or scheduled are as many as the Disconnection Completes sent or scheduled, plus one if the link is open.", "quantifier": "all histories of host commands, host data, received packets and ticks", "why_tests_cant": "links are opened and closed by hosts, peers and timeouts in any order", "anchors": ["model/controller/bredr_controller.cc:BrEdrController::CreateConnection", "model/controller/bredr_controller.cc:BrEdrController::AcceptConnectionRequest", "model/controller/bredr_controller.cc:BrEdrController::Disconnect", "model/controller/bredr_controller.cc:BrEdrController::IncomingPageResponsePacket", "model/controller/bredr_controller.cc:BrEdrController::IncomingDisconnectPacket", "model/controller/bredr_controller.cc:BrEdrController::CheckExpiringConnection", "model/controller/acl_connection_handler.cc:AclConnectionHandler"]}
{"id": "C70", "title": "A link ends when its peer is silent for three seconds, and not before", "statement": "After every tick, each open link has heard a packet of its peer, or been accepted, within the last three seconds; a tick never ends a link whose peer was heard within the last three seconds.", "quantifier": "all histories with a clock that does not go back; all tick times", "why_tests_cant": "quantifies over all arrival times of packets and all tick schedules", "anchors": ["model/controller/bredr_controller.cc:BrEdrController::CheckExpiringConnection", "model/controller/bredr_controller.cc:BrEdrController::IncomingPacket", "model/controller/bredr_controller.cc:BrEdrController::IncomingPingRequest", "model/controller/bredr_controller.cc:BrEdrController::IncomingPingResponse"]}
{"id": "C71", "title": "Connection requests reach the host, and its answer takes effect", "statement": "A connection request event is sent exactly for a page addressed to a scanning controller, from a device without a link, when no other request is pending; accepting it opens a link, and both the device and the host are told by the next tick; refusing or accepting it leaves the controller ready for the next page.", "quantifier": "all histories of host commands, host data, received packets and ticks", "why_tests_cant": "depends on the request pending since any earlier page", "anchors": ["model/controller/bredr_controller.cc:BrEdrController::IncomingPagePacket", "model/controller/bredr_controller.cc:BrEdrController::AcceptConnectionRequest", "model/controller/bredr_controller.cc:BrEdrController::RejectConnectionRequest"]}
{"id": "C72", "title": "ACL data is passed on once, unchanged and in order", "statement": "The ACL packets sent to peers, with one Number Of Completed Packets event each, are those the host gave on open links, in the same order, each exactly once, by the next tick at the latest; an ACL packet of a connected peer is passed to the host once, on the handle of that peer's link, and one of another device is not.", "quantifier": "all lists of timed steps from power on, with a clock that does not go back", "why_tests_cant": "the order of the scheduled sends depends on everything else scheduled", "anchors": ["model/controller/bredr_controller.cc:BrEdrController::HandleAcl", "model/controller/bredr_controller.cc:BrEdrController::IncomingAclPacket", "model/controller/bredr_controller.cc:BrEdrController::SendLinkLayerPacket"]}
{"id": "C73", "title": "Advertising ends when its duration or its number of events is reached, and not before", "statement": "After every tick, an advertising set with a duration is enabled only within that duration; sets enabled with a number of events never send more advertising packets than the host asked for; high duty cycle directed advertising ends 1.28 s after it was enabled. A tick ends no other advertising, and tells the host when it ends one.", "quantifier": "all histories of host commands, received packets and ticks; all tick times", "why_tests_cant": "quantifies over all tick schedules and over re-enabled, reconfigured and reset sets", "anchors": ["model/controller/le_advertiser.cc:LeController::LeAdvertising", "model/controller/le_advertiser.cc:LeController::LeSetExtendedAdvertisingEnable", "model/controller/le_advertiser.cc:LeController::LeSetAdvertisingEnable"]}
{"id": "C74", "title": "Scanning ends when its duration is reached, and not before", "statement": "After every tick, scanning with a duration and no period is enabled only within that duration; scanning ends only by a command, a reset or such a timeout, of which the host is told. With a period, scanning pauses between the end of the duration and the next period.", "quantifier": "all histories of host commands, received packets and ticks; all tick times", "why_tests_cant": "quantifies over all tick schedules and all sequences of scan commands", "anchors": ["model/controller/le_controller.cc:LeController::LeSetExtendedScanEnable", "model/controller/le_controller.cc:LeController::LeSetScanEnable", "model/controller/le_controller.cc:LeController::LeScanning"]}
{"id": "C75", "title": "With the duplicate filter each packet is reported once", "statement": "While scanning with the duplicate filter enabled, a packet already reported since scanning was enabled is not reported again; the first reception of a packet that passes the filter policy is reported.", "quantifier": "all histories of host commands, received packets and ticks; all packets", "why_tests_cant": "depends on all the packets received since scanning was enabled", "anchors": ["model/controller/le_controller.cc:LeController::ScanIncomingLeLegacyAdvertisingPdu", "model/controller/le_controller.cc:LeController::ScanIncomingLeExtendedAdvertisingPdu", "model/controller/le_controller.cc:LeController::IncomingLeScanResponsePacket"]}
{"id": "C76", "title": "Long advertising data is reported whole, in pieces", "statement": "The reports of one extended advertising packet or scan response carry pieces of at most 229 bytes that make up its data in order, all but the last marked incomplete; the periodic reports of one synchronization do so with pieces of at most 247 bytes.", "quantifier": "all states and packets; all lengths of data", "why_tests_cant": "the boundary is crossed at every multiple of the piece size", "anchors": ["model/controller/le_controller.cc:LeController::ScanIncomingLeExtendedAdvertisingPdu", "model/controller/le_controller.cc:LeController::IncomingLeScanResponsePacket", "model/controller/le_controller.cc:LeController::IncomingLePeriodicAdvertisingPdu"]}
{"id": "C77", "title": "The LE controller sends with the own address the host selected", "statement": "Every advertising packet, scan response, scan request and connection request carries the public address, the random address or a private address resolvable with the local key stored for the peer, as the own address type of the latest accepted command says; a private address is replaced by the other kind only when the resolving list has no key for the peer, and a random address that was never set is not used. Enabling advertising fails rather than use another address. Periodic advertising packets carry the address chosen when the host last enabled the set, even after the set is disabled.", "quantifier": "all ciphers, random values, configurations and histories", "why_tests_cant": "The address depends on the commands of the whole history (addresses, parameters, resolving list, re-enabling, failed commands); a wrong one is a privacy leak no single scenario shows.", "anchors": ["model/controller/le_controller.cc:LeController::LeSetAdvertisingEnable", "model/controller/le_controller.cc:LeController::LeSetExtendedAdvertisingEnable", "model/controller/le_controller.cc:LeController::LeSetRandomAddress", "model/controller/le_controller.cc:LeController::ScanIncomingLeLegacyAdvertisingPdu", "model/controller/le_controller.cc:LeController::ConnectIncomingLeLegacyAdvertisingPdu"]}
{"id": "C78", "title": "Simple pairing key pairs are valid", "statement": "For every sequence of random bytes, the Link Manager obtains a private key between 1 and half the field size without panicking, and the public key it sends to the peer is a point of the curve of FIPS 186 (P-192 or P-256): the product of the base point and the private key, both coordinates written as unsigned little endian numbers.", "quantifier": "all random inputs, both curves", "why_tests_cant": "A test checks a few keys with known answers; that every key leads to a point on the curve needs the algebra of point addition, and the failures depend on the sign of internal numbers.", "anchors": ["rust/src/lmp/ec.rs:PrivateKey::generate_p192", "rust/src/lmp/ec.rs:PrivateKey::generate_p256", "rust/src/lmp/ec.rs:PrivateKey::derive", "rust/src/lmp/ec.rs:Point::double", "rust/src/lmp/ec.rs:Point::add", "rust/src/lmp/ec.rs:mod_inv"]}
{"id": "C79", "title": "Both sides of a pairing compute the same shared secret", "statement": "For every private key and every valid public key received from the peer, the Link Manager computes, without panicking, the product of the peer's point and the private key; two devices that exchange public keys obtain the same secret.", "quantifier": "all private keys and all received public keys, both curves", "why_tests_cant": "The secret is a function of two 256 bit numbers; the tests multiply the published vectors only, none of which exercises the signed reading of coordinates.", "anchors": ["rust/src/lmp/ec.rs:PrivateKey::shared_secret", "rust/src/lmp/ec.rs:PublicKey::to_point", "rust/src/lmp/ec.rs:PublicKey::from_bytes"]}
{"id": "C80", "title": "Every command of the Link Manager is answered once, in order", "statement": "Each pairing, authentication and encryption command for a link is answered by exactly one Command Complete or Command Status event, in the order of the commands; at most one is unanswered at any time. A command that a procedure takes is answered with success and the address of its link; a command for a device without a link is refused at once with Invalid HCI Command Parameters; every command is answered in the end.", "quantifier": "all histories of commands, received packets, ticks, links added and removed; all random keys", "why_tests_cant": "Which of five concurrent procedures takes a command depends on where each of them waits; an unanswered command blocks the host for ever, in one order of events out of many.", "anchors": ["rust/src/lmp/manager.rs:LinkManager::ingest_hci", "rust/src/lmp/manager.rs:LinkManager::send_command_complete_event", "rust/src/lmp/procedure/mod.rs:run", "rust/src/lmp/manager.rs:LinkManager::tick"]}
{"id": "C81", "title": "The Link Manager neither crashes nor hangs", "statement": "No sequence of host commands and received LMP packets makes the Link Manager panic, abort the process, read outside its tables or loop for ever.", "quantifier": "all histories, all received packets, all random keys", "why_tests_cant": "The panics sit in unwraps and assertions far from the input that triggers them (an enumeration value, a length, a point of a curve, the number of links).", "anchors": ["rust/src/lmp/manager.rs:LinkManager::add_link", "rust/src/lmp/manager.rs:Link::ingest_hci", "rust/src/lmp/procedure/secure_simple_pairing.rs:initiate", "rust/src/lmp/procedure/secure_simple_pairing.rs:respond", "rust/src/lmp/procedure/features.rs:respond"]}
{"id": "C82", "title": "An authentication is completed once, with the outcome", "statement": "On each link, every accepted Authentication Requested command is followed by at most one Authentication Complete event, before the next one is accepted, with the handle of the link. When the host gives a link key it reports success if the peer answers the challenge and PIN Or Key Missing if the peer refuses it; without a link key it reports success exactly if a new link key was just reported to the host, and Authentication Failure otherwise. No such event comes unasked, and a known outcome is reported at once.", "quantifier": "all histories of commands and packets of a link, for as long as it exists", "why_tests_cant": "The outcome passes through pairing procedures with dozens of waiting points, at each of which either side may fail.", "anchors": ["rust/src/lmp/procedure/authentication.rs:initiate", "rust/src/lmp/procedure/authentication.rs:send_challenge", "rust/src/lmp/procedure/legacy_pairing.rs:initiate"]}
{"id": "C83", "title": "A refused pairing fails and gives no link key", "statement": "On each link and on both sides, every pairing that asks the host for its IO capabilities ends with at most one Simple Pairing Complete event; no second pairing begins before. If the host refused (IO capabilities, confirmation, passkey or out of band data) it is a failure; a simple pairing link key is reported only right after a success, once.", "quantifier": "all histories of commands and packets of a link", "why_tests_cant": "A refusal may come in any of the association models, in any round, on either side.", "anchors": ["rust/src/lmp/procedure/secure_simple_pairing.rs:initiate", "rust/src/lmp/procedure/secure_simple_pairing.rs:respond", "rust/src/lmp/procedure/authentication.rs:respond"]}
{"id": "C84", "title": "Both sides pair with the association model of the specification", "statement": "The IO capabilities given by the host are sent to the peer, those received are reported to the host, and the questions to the user (confirmation, passkey entry or display, out of band data) are those of the tables of the Core Specification for the capabilities of both sides; the type of the link key reported (authenticated or not, P-192 or P-256) follows from them and from the curve of the key. The public key sent is the one derived from the private key drawn, announced with its length and sent whole in pieces of 16 bytes.", "quantifier": "all capabilities of both sides, all curves and random keys, all histories", "why_tests_cant": "There are 96 times 96 pairs of parameters, two curves and two roles; the unit tests play a few scripts.", "anchors": ["rust/src/lmp/procedure/secure_simple_pairing.rs:authentication_method", "rust/src/lmp/procedure/secure_simple_pairing.rs:link_key_type", "rust/src/lmp/procedure/secure_simple_pairing.rs:send_public_key", "rust/src/lmp/procedure/secure_simple_pairing.rs:receive_public_key"]}
{"id": "C85", "title": "An encryption change is reported once, with the right cipher", "statement": "On each link every accepted Set Connection Encryption command, and every encryption started by the peer, is followed by at most one Encryption Change event with the handle of the link; it reports AES-CCM exactly if the hosts and the controllers of both sides support Secure Connections; it reports success only if the peer agreed, and turns encryption on or off as asked. Requests for features are answered with the page asked for and the local features.", "quantifier": "all histories of commands and packets of a link, all features of both sides", "why_tests_cant": "The event depends on four feature pages collected in different exchanges, interleaved with other procedures.", "anchors": ["rust/src/lmp/procedure/encryption.rs:initiate", "rust/src/lmp/procedure/encryption.rs:respond", "rust/src/lmp/procedure/features.rs:supported_on_both_page1", "rust/src/lmp/procedure/features.rs:respond"]}
{"id": "C86", "title": "LMP packets are handled in order and none blocks the link", "statement": "On each link the procedures handle the received LMP packets in the order of their arrival, each at most once, and every packet is handled in the end, so that no packet of the peer makes the link deaf to the following ones.", "quantifier": "all histories of commands and packets of a link", "why_tests_cant": "The five procedures share one queue and each only looks at its front; a packet nobody expects stays there.", "anchors": ["rust/src/lmp/manager.rs:Link::poll_lmp_packet", "rust/src/lmp/manager.rs:LinkManager::ingest_lmp", "rust/src/lmp/procedure/mod.rs:run"]}
{"id": "C87", "title": "Every command is answered once, in order, with a credit", "statement": "The controller answers each HCI command it accepts with exactly one Command Complete or Command Status event that carries the operation code of the command and allows one further command, before it handles the next packet, whatever data packets come in between; the commands of pairing, encryption and isochronous streams are handed over unchanged to the link manager or link layer, which answer them. Nothing is lost: in local loopback the command itself comes back, a packet that is rejected or comes before the reset the controller insists on gives one hardware error, and a CSR vendor command is answered with one vendor event.", "quantifier": "all sequences of HCI command, ACL and SCO packets, all states, all supported command masks, any behaviour of the controllers behind", "why_tests_cant": "A host that misses one answer stops for ever; there are 217 handlers and the tests send few commands of few kinds.", "anchors": ["model/controller/dual_mode_controller.cc:HandleCommand", "model/controller/dual_mode_controller.cc:HandleAcl", "model/controller/dual_mode_controller.cc:HandleSco", "model/controller/dual_mode_controller.cc:ForwardToLm", "model/controller/dual_mode_controller.cc:ForwardToLl", "model/controller/dual_mode_controller.cc:GetHciCommandHandlers"]}
{"id": "C88", "title": "No command takes the controller down", "statement": "A controller with the default properties survives every well framed command packet, in every state, and answers the commands that it advertises: it neither aborts nor reads outside of its tables.", "quantifier": "all command packets (all operation codes, all parameters), all states", "why_tests_cant": "There are 65536 operation codes with up to 255 bytes of parameters; a crash may depend on a few of these bytes.", "anchors": ["model/controller/dual_mode_controller.cc:HandleCommand", "model/controller/dual_mode_controller.cc:SetEventFilter", "model/controller/dual_mode_controller.cc:ReadLocalExtendedFeatures", "model/controller/dual_mode_controller.cc:IntelDdcConfigRead", "model/controller/dual_mode_controller.cc:IntelDdcConfigWrite", "model/controller/dual_mode_controller.cc:CsrVendorCommand", "model/controller/dual_mode_controller.cc:LeApcf", "model/controller/dual_mode_controller.cc:ResetFailedContactCounter", "model/controller/controller_properties.cc:SupportedCommands"]}
{"id": "C89", "title": "The supported commands mask tells the truth", "statement": "Read Local Supported Commands returns the configured mask, and for each command with a position in the mask of the Core Specification the command is refused with Unknown HCI Command if its bit is clear, and is not if the bit is set.", "quantifier": "all masks, all commands of the specification, all parameters and states", "why_tests_cant": "The mask is a separate table of more than three hundred positions; a test would have to send every command under many masks.", "anchors": ["model/controller/dual_mode_controller.cc:HandleCommand", "model/controller/dual_mode_controller.cc:ReadLocalSupportedCommands", "model/controller/dual_mode_controller.cc:GetOpCodeToIndex", "model/controller/controller_properties.cc:SupportedCommands"]}
{"id": "C90", "title": "Local loopback returns what the host sends", "statement": "While the last successful Write Loopback Mode since the last reset asked for local loopback, each command outside of the seven exceptions of the specification comes back unchanged in a Loopback Command event and changes nothing, each data packet comes back unchanged with its credit; otherwise none does. Read Loopback Mode returns that mode. A command too long for the event is truncated; leaving loopback announces no connection.", "quantifier": "all histories of packets, all packets", "why_tests_cant": "Packets are parsed and built again on the way back, and the mode depends on the whole history.", "anchors": ["model/controller/dual_mode_controller.cc:HandleCommand", "model/controller/dual_mode_controller.cc:HandleAcl", "model/controller/dual_mode_controller.cc:HandleSco", "model/controller/dual_mode_controller.cc:WriteLoopbackMode", "model/controller/dual_mode_controller.cc:ReadLoopbackMode", "model/controller/dual_mode_controller.cc:Reset"]}
{"id": "C91", "title": "A setting read is the last one written", "statement": "For each of the settings that have a read and a write command, the read command returns the value of the last write answered with success since the last reset, or the initial value; a write with a value in the range of the specification is answered with success, and is refused without effect if it is not allowed.", "quantifier": "all histories of packets, all values", "why_tests_cant": "The value depends on the history, including resets, refused writes and writes in loopback mode.", "anchors": ["model/controller/dual_mode_controller.cc:WriteLocalName", "model/controller/dual_mode_controller.cc:ReadLocalName", "model/controller/dual_mode_controller.cc:WriteScanEnable", "model/controller/dual_mode_controller.cc:WriteClassOfDevice", "model/controller/dual_mode_controller.cc:WriteVoiceSetting", "model/controller/dual_mode_controller.cc:WriteCurrentIacLap", "model/controller/dual_mode_controller.cc:LeWriteSuggestedDefaultDataLength", "model/controller/dual_mode_controller.cc:WriteInquiryMode", "model/controller/dual_mode_controller.cc:ReadInquiryMode", "model/controller/bredr_controller.cc:Reset", "model/controller/le_controller.cc:Reset"]}
{"id": "C92", "title": "Every data packet has one destination", "statement": "Outside of loopback each ACL packet of the host goes unchanged to the controller that owns its handle (BR/EDR below 0x100, LE from 0x200 to 0x2ff), and for any other handle its credit is returned at once, so no credit is lost; SCO packets go to the BR/EDR controller.", "quantifier": "all data packets, all histories", "why_tests_cant": "A wrong boundary shows only with many connections.", "anchors": ["model/controller/dual_mode_controller.cc:HandleAcl", "model/controller/dual_mode_controller.cc:HandleSco"]}
{"id": "C93", "title": "LE ACL data goes through once, in order and unchanged", "statement": "The ACL packets a host gives for open LE links are sent to the peers of those links, each once, in the order given, with their data and boundary flag unchanged; each data packet is credited once with Number Of Completed Packets; after the next tick everything has been sent. A received ACL packet is passed to the host on the connection it belongs to, unchanged but for the boundary flag of a first packet. Between two connected controllers the one host gets what the other gave. No data packet crashes the controller.", "quantifier": "All histories of host commands, host data, received packets, links coming and going and ticks; all interleavings of two connected controllers.", "why_tests_cant": "Tests send a few packets on one link; order, uniqueness and crediting must hold however sends, disconnections and ticks interleave.", "anchors": ["model/controller/le_controller.cc:LeController::HandleAcl", "model/controller/le_controller.cc:LeController::IncomingLeAclPacket", "model/controller/le_controller.cc:LeController::SendLeLinkLayerPacket", "model/controller/le_controller.cc:LeController::ScheduleTask", "model/controller/le_controller.cc:LeController::RunPendingTasks"]}
{"id": "C94", "title": "An isochronous service data unit given by the host is sent whole to the peer of its stream", "statement": "A service data unit the host passes on an established stream, in one HCI packet or fragmented as the Core specification says, is sent once to the peer of the stream's link with its sequence number and exactly its bytes, unless it exceeds the maximum of the stream, in which case nothing is sent. Nothing else is sent as isochronous data. Units of different streams do not affect each other, and no host data crashes the controller.", "quantifier": "All units, all ways to fragment them, all histories in between.", "why_tests_cant": "The ways to cut and interleave units are unbounded; tests use one or two packets on one stream.", "anchors": ["model/controller/le_controller.cc:LeController::HandleIso", "rust/src/ffi.rs:link_layer_get_cis_information"]}
{"id": "C95", "title": "A received isochronous service data unit is delivered whole on its stream", "statement": "A service data unit received from the peer of a stream with an output data path is passed to the host on the handle of that stream, as HCI packets from which a host that follows the Core specification reads the same sequence number and bytes. Data of unknown streams or from devices without a connection is ignored.", "quantifier": "All received packets of any size, all states of the streams.", "why_tests_cant": "The unit sizes and the tables of streams are unbounded; tests receive short units on a single stream.", "anchors": ["model/controller/le_controller.cc:LeController::IncomingLeConnectedIsochronousPdu", "rust/src/llcp/manager.rs:LinkLayer"]}
{"id": "C96", "title": "LE links are supervised", "statement": "After a tick every open LE link has had contact with its peer within the supervision timeout; a link is not dropped by a tick if its peer was heard within that time; a link ends only by a tick after silence, by a Reset, by a Disconnect for it or by a disconnection from the peer; unless it is a Reset, at the next tick the host gets Disconnection Complete with the reason (if unmasked) and the peer, if it did not end the link itself, is told.", "quantifier": "All histories of links, packets and ticks at any times.", "why_tests_cant": "The times of packets and ticks range over an unbounded set of schedules.", "anchors": ["model/controller/le_controller.cc:LeController::CheckExpiringConnection", "model/controller/le_controller.cc:LeController::Disconnect", "model/controller/le_controller.cc:LeController::Reset", "model/controller/le_controller.cc:LeController::IncomingLeDisconnectPacket", "model/controller/le_controller.cc:LeController::SendDisconnectionCompleteEvent", "model/controller/le_acl_connection.cc:IsNearExpiring", "model/controller/le_acl_connection.cc:HasExpired"]}
{"id": "C97", "title": "Two idle connected LE controllers stay connected", "statement": "Two connected LE controllers that are ticked at least every 499 milliseconds keep their link for ever, whatever data their hosts send or whether they are silent: the pings are sent and answered in time.", "quantifier": "All interleavings of the ticks and data packets of both sides, for any length of time.", "why_tests_cant": "It is a statement about unbounded time and all schedules of two devices.", "anchors": ["model/controller/le_controller.cc:LeController::CheckExpiringConnection", "model/controller/le_controller.cc:LeController::IncomingPingRequest", "model/controller/le_controller.cc:LeController::Tick", "model/controller/le_acl_connection.cc:IsNearExpiring"]}
{"id": "C98", "title": "The host is told the truth about the device at the other end of a BR/EDR link", "statement": "While a BR/EDR link is open, the commands that ask for the name, the features, the extended features, the version or the clock offset of the device at the other end are answered by exactly one event of the right kind each, in the order of the commands, on the handle of the link, and with the values that the other controller has; nothing is told that was not asked. No such command of one host can crash the other controller.", "quantifier": "All histories of the two controllers: commands of both hosts, data, packets of third devices, ticks and delays of the packets between them.", "why_tests_cant": "The questions, their answers and everything else the two devices do can interleave in unboundedly many ways.", "anchors": ["model/controller/bredr_controller.cc:BrEdrController::RemoteNameRequest", "model/controller/bredr_controller.cc:BrEdrController::ReadRemoteSupportedFeatures", "model/controller/bredr_controller.cc:BrEdrController::ReadRemoteExtendedFeatures", "model/controller/bredr_controller.cc:BrEdrController::ReadRemoteVersionInformation", "model/controller/bredr_controller.cc:BrEdrController::ReadClockOffset", "model/controller/bredr_controller.cc:BrEdrController::IncomingRemoteNameRequest", "model/controller/bredr_controller.cc:BrEdrController::IncomingReadRemoteLmpFeatures", "model/controller/bredr_controller.cc:BrEdrController::IncomingReadRemoteSupportedFeatures", "model/controller/bredr_controller.cc:BrEdrController::IncomingReadRemoteExtendedFeatures", "model/controller/bredr_controller.cc:BrEdrController::IncomingReadRemoteVersion", "model/controller/bredr_controller.cc:BrEdrController::IncomingReadClockOffset"]}
{"id": "C99", "title": "The two ends of a BR/EDR link have opposite roles, and the hosts know them", "statement": "When two controllers are connected and no agreement to change roles is under way, one of them is the Central of the link and the other the Peripheral; their roles when the link is set up are those that the two hosts asked for and allowed. Every accepted Switch Role command is answered with exactly one Role Change event, a change that the peer asked for and the link policy allows is reported with one event, and the last event a host got names the present role.", "quantifier": "All histories of two controllers, their hosts and third devices: switches asked for by both sides at any time, policies changed at any time, all delays of packets.", "why_tests_cant": "Requests to switch can cross each other, and answers can be under way while policies change; the number of schedules is unbounded.", "anchors": ["model/controller/bredr_controller.cc:BrEdrController::SwitchRole", "model/controller/bredr_controller.cc:BrEdrController::IncomingRoleSwitchRequest", "model/controller/bredr_controller.cc:BrEdrController::IncomingRoleSwitchResponse", "model/controller/bredr_controller.cc:BrEdrController::AcceptConnectionRequest", "model/controller/bredr_controller.cc:BrEdrController::IncomingPageResponsePacket", "model/controller/bredr_controller.cc:BrEdrController::WriteLinkPolicySettings"]}
{"id": "C100", "title": "Both ends agree on a synchronous connection, and both hosts learn its outcome", "statement": "When one of two connected controllers sets up a synchronous (SCO or eSCO) connection, the host of the other one is asked. Once no request or answer is under way and no host still has a request to answer, either neither end has a synchronous connection or both have one, with the same parameters, negotiated from the request and from what the host that accepted it asked for. A controller waits for an answer only while the other host has one to give. Every accepted command and every request shown to a host ends with exactly one completion event, successful exactly when the connection opens. While a connection is open at both ends, the voice packets written by one host reach the other one in order, once each.", "quantifier": "All histories of two connected controllers, their hosts and third devices: requests of both sides that cross, acceptances, refusals, failing negotiations, all delays of packets.", "why_tests_cant": "Requests of both sides can cross each other and answers can meet newer requests; the schedules of two hosts and the radio are unbounded.", "anchors": ["model/controller/bredr_controller.cc:BrEdrController::SetupSynchronousConnection", "model/controller/bredr_controller.cc:BrEdrController::AddScoConnection", "model/controller/bredr_controller.cc:BrEdrController::AcceptSynchronousConnection", "model/controller/bredr_controller.cc:BrEdrController::RejectSynchronousConnection", "model/controller/bredr_controller.cc:BrEdrController::IncomingScoConnectionRequest", "model/controller/bredr_controller.cc:BrEdrController::IncomingScoConnectionResponse", "model/controller/bredr_controller.cc:BrEdrController::IncomingScoDisconnect", "model/controller/bredr_controller.cc:BrEdrController::SendScoToRemote", "model/controller/bredr_controller.cc:BrEdrController::IncomingScoPacket"]}
{"id": "C101", "title": "An inquiry finds the devices that can be found, and ends once", "statement": "At most one inquiry runs at a time; an accepted one ends with exactly one Inquiry Complete event, at the first tick after its length has passed, unless the host cancels it or resets the controller. While it runs its packets go out at least two seconds apart, with the access code and mode the host asked for, and a device in range that scans for that code is reported once for each packet it hears, with its own address, class and data, in order; a device that does not scan, or scans for other codes, is never reported. No more devices than asked for are reported, none when no inquiry runs, and an inquiry of any permitted length finds a device that is in range all the time.", "quantifier": "All histories of two controllers, their hosts and third devices, all times of ticks and delays of packets.", "why_tests_cant": "The times of the ticks, the delays of the packets and the commands of both hosts can interleave in unboundedly many ways.", "anchors": ["model/controller/bredr_controller.cc:BrEdrController::Inquiry", "model/controller/bredr_controller.cc:BrEdrController::InquiryCancel", "model/controller/bredr_controller.cc:BrEdrController::IncomingInquiryPacket", "model/controller/bredr_controller.cc:BrEdrController::IncomingInquiryResponsePacket", "model/controller/bredr_controller.cc:BrEdrController::SetInquiryMode", "model/controller/bredr_controller.cc:BrEdrController::WriteScanEnable", "model/controller/bredr_controller.cc:BrEdrController::WriteExtendedInquiryResponse"]}
{"id": "C102", "title": "The BR/EDR controller survives every call", "statement": "No command or data of a host, no packet of another device and no tick of the clock stops the BR/EDR controller: it is not aborted, it does not read outside its tables, and it does not loop for ever. In particular a host cannot stop the controller of another device, and closing a link is safe whatever is open on it.", "quantifier": "Every history of host commands, data, packets (also malicious ones) and ticks, every order of the hash tables, every configuration; and, for the refutations, two controllers with well behaved hosts", "why_tests_cant": "The dangerous states need specific histories (crossed disconnections, two synchronous connections, eight links, 256 handles); a test covers one of them, and cannot show that there is no other.", "anchors": ["model/controller/bredr_controller.cc:BrEdrController::Disconnect", "model/controller/bredr_controller.cc:BrEdrController::IncomingDisconnectPacket", "model/controller/bredr_controller.cc:BrEdrController::IncomingScoConnectionResponse", "model/controller/bredr_controller.cc:BrEdrController::IncomingReadRemoteExtendedFeatures", "model/controller/bredr_controller.cc:BrEdrController::MakePeripheralConnection", "model/controller/sco_connection.cc", "model/controller/acl_connection_handler.cc"]}
{"id": "C103", "title": "A host on a socket exchanges exactly its packets with the controller", "statement": "A controller whose host is at the other end of a socket receives the packets that the host writes, complete, unchanged and in order, however the bytes are cut into reads and whatever the controller does in between. The host receives the packets that the controller sends, in order, and nothing else. No bytes that the host writes stop the process. When the host closes its end the packets before are still handled, then the device leaves the simulation, once; it does not leave before, and nothing is lost while the host is there.", "quantifier": "Every history of writes and closures of the host, failures of the connection, ticks of the simulation and scheduled tasks; every controller behind (any state and answers); every number of bytes given by a read and taken by a write", "why_tests_cant": "The sizes of reads and writes, the errno of an earlier call and the order of closure, tick and task belong to the operating system; a test sees one of each.", "anchors": ["model/hci/h4_data_channel_packetizer.cc: Send, OnDataReady", "model/hci/hci_socket_transport.cc", "model/devices/hci_device.cc", "net/posix/posix_async_socket.cc: Recv, Send, Connected, Close", "model/setup/test_model.cc: AddHciConnection, OnConnectionClosed"]}
{"id": "C104", "title": "The host is told the truth about the controller at the other end of an LE connection", "statement": "Each question of a host about the features or the version of the controller at the other end of an LE connection that is accepted is answered exactly once, in the order of the questions, as long as the connection lasts, with what that controller was when the connection was made: its host cannot change a feature meanwhile. Reading the PHYs gives what the host was last told and, when no packet is under way, the reverse of what the other host reads. These commands, and those on the data length and the transmit power, change neither controller, and are refused only without a connection or with parameters out of range. A host can change exactly the three feature bits it controls, only while its controller has no LE connection.", "quantifier": "All settings of two controllers, all interleavings of the commands of both hosts and the delivery of packets in both directions, all event masks, both sides", "why_tests_cant": "The answers are packets that cross other packets, commands, PHY updates and disconnections of both sides; a test sees one interleaving.", "anchors": ["model/controller/le_controller.cc: LeReadRemoteFeaturesPage0, ReadRemoteVersionInformation, LeReadPhy, LeSetHostFeature, LeSetDataLength, LeReadRemoteTransmitPowerLevel, LeSetTransmitPowerReportingEnable, IncomingLeReadRemoteFeatures, IncomingLeReadRemoteFeaturesResponse, IncomingReadRemoteVersion, IncomingReadRemoteVersionResponse", "model/controller/le_controller.h: GetLeSupportedFeatures", "packets/link_layer_packets.pdl: ReadRemoteVersionInformationResponse"]}
{"id": "C105", "title": "The host knows exactly its LE connections, and every attempt to connect is answered once", "statement": "A host that keeps the handles, roles, peer addresses and parameters given by the LE Connection Complete events of status success, removes those of the Disconnection Complete events and starts again at Reset has at any time exactly the connections of the controller, with distinct handles; Disconnect works for those handles and for no other, and gives one event. Every accepted LE Create Connection or LE Extended Create Connection is answered by exactly one Connection Complete event as central; meanwhile another one is refused with Command Disallowed, and LE Create Connection Cancel is accepted exactly while an answer is due and is itself answered with Unknown Connection Identifier. There is at most one connection between the same two addresses.", "quantifier": "all histories of commands, received packets and timer ticks of a controller, with the relevant events enabled in the masks whenever a step can make or end a connection; all random generators and all ciphers", "why_tests_cant": "The list is the result of the whole history; the races between a cancellation and the response of the advertiser are not in the tests", "anchors": ["model/controller/le_controller.cc: LeCreateConnection, LeExtendedCreateConnection, LeCreateConnectionCancel, HandleLeConnection, IncomingLeConnectPacket, IncomingLeConnectCompletePacket, IncomingDisconnectPacket, Disconnect, Reset", "model/controller/acl_connection_handler.cc: CreateLeConnection, GetUnusedHandle"]}
{"id": "C106", "title": "Two LE controllers agree on the connections between them", "statement": "A phone connects to a watch that advertises; the packets of each controller arrive at the other one, in order, at any time. If the phone asks for a connection only while no request or response is under way and it has no connection between the same addresses, and takes the response it gets, then: whenever no packet about a connection is under way, the connections of the two controllers are the two ends of the same connections, with the same addresses and address types, interval, latency and supervision timeout and with opposite roles; at any time the two ends of a connection have the same parameters; a controller alone has a connection only while the end or the acceptance of this connection is under way; there is at most one connection between two addresses. For each attempt of the host at most one request is sent. A controller that accepts a connection stops the advertising that accepted it, and no other; a request that is not accepted stops none.", "quantifier": "all sequences of commands of both hosts, ticks and deliveries, all delays of the packets, all configurations and random numbers", "why_tests_cant": "A half-open connection needs a particular crossing of a disconnection, a reset or the end of the advertising with packets under way; the tests run one controller against a scripted peer", "anchors": ["model/controller/le_controller.cc: ConnectIncomingLeLegacyAdvertisingPdu, ConnectIncomingExtendedAdvertisingPdu, IncomingLeConnectPacket, IncomingLeConnectCompletePacket, IncomingDisconnectPacket, HandleLeConnection, Disconnect, Reset", "model/controller/le_advertiser.cc: ProcessIncomingLegacyConnectRequest, ProcessIncomingExtendedConnectRequest"]}
{"id": "C107", "title": "A watched file descriptor gets its callback, and no callback is called after the watching has ended", "statement": "Threads ask an AsyncManager to call a function when a descriptor can be read, ask it to stop watching a descriptor, and stop it. A callback is called only if its descriptor was readable when the thread last looked, it is the last callback given for this descriptor when the callbacks are collected, and in the order of the descriptors, each once. After the call that stops the watching of a descriptor has returned, its callback is not running and is not called before the descriptor is watched again; in a callback this holds from the end of the round. After the stop no callback is called until the thread is started again. When all calls have returned, every watched descriptor with data gets its callback, whatever the thread was doing (no wake-up is lost). The thread can be started and stopped any number of times: stopping returns, forgets all descriptors and nothing aborts the program.", "quantifier": "all interleavings of any number of client threads, the watching thread, callbacks that use the manager themselves and the arrival of data; all descriptors; the last three parts for clients that do not start to watch during a stop and do not stop in a callback", "why_tests_cant": "Lost wake-ups, calls after the end of the watching and double joins are races between three threads and the operating system; a test sees one schedule", "anchors": ["model/setup/async_manager.cc: AsyncFdWatcher::WatchFdForNonBlockingReads, StopWatchingFileDescriptor, stopThread, tryStartThread, notifyThread, setUpFileDescriptorSet, consumeThreadNotifications, runAppropriateCallbacks, ThreadRoutine"]}
{"id": "C108", "title": "A controller has the features, commands, quirks and modes that its configuration asks for", "statement": "A configuration gives a preset, switches nine features on or off, and sets quirks, vendor commands and the strict mode. Every LE feature bit a switch stands for has the value of the switch, and every other bit the value of the preset. A command that comes with a switched feature is answered with Unknown HCI Command when the feature is off and executed when it is on; the other commands are as in the preset, and the sizes and BR/EDR features depend on the preset alone. Strict mode, vendor commands and quirks are as given, with the documented defaults; writing down a default changes nothing. No command of the host takes a controller down because of its configuration.", "quantifier": "all configurations (any preset, any subset of the switches with any values, quirks, vendor options and strict mode), all commands with any parameters, all states of the controller", "why_tests_cant": "There are tens of thousands of configurations, several hundred commands and overlapping command groups; tests use a few presets", "anchors": ["model/controller/controller_properties.cc: ControllerProperties::ControllerProperties(Controller const&), SetLLFeatureBit, SetSupportedCommandBits, LlFeatures", "proto/rootcanal/configuration.proto", "model/controller/controller_properties.h: ControllerProperties, LeSupportedPhys", "model/controller/le_controller.cc: LeController::LeController, Reset, LeSetRandomAddress"]}
{"id": "C109", "title": "A host that synchronises with periodic advertising is told of it once, and gets every packet of the trains it is synchronised with and of no other", "statement": "Every accepted Create Sync command is answered by exactly one Sync Established event: with success when a packet of a train it asks for is received, with 'cancelled' when the host cancels it; until then other requests are refused. The synchronisation made is with the train named in the command, or with one in the periodic advertiser list; its handle is the smallest one not in use. A host that keeps a list from the events and from its accepted Terminate Sync and Reset commands knows exactly the synchronisations of its controller. A packet received from a train is reported once for each synchronisation with it, whole and in order, and never for another handle; so what one host stores as periodic data reaches every synchronised host unchanged. A host has one synchronisation with a train, hears of its trains whether it scans or not, and is told when a train is lost.", "quantifier": "all histories of two LE controllers (commands, packets, ticks, times), all trains, data, address resolutions, masks that let the events through", "why_tests_cant": "Depends on the interleaving of requests, cancellations, packets of several trains, list changes and terminations; losses need long silences", "anchors": ["model/controller/le_controller.cc: LeController::LePeriodicAdvertisingCreateSync, LePeriodicAdvertisingCreateSyncCancel, LePeriodicAdvertisingTerminateSync, IncomingLePeriodicAdvertisingPdu, LeSynchronization, Tick", "model/controller/le_controller.h: Synchronizing, Synchronized"]}
{"id": "C110", "title": "Every host that connects to the server gets a controller of its own, with the configuration of the port it came to; test clients are served one at a time and read the answers to their own commands", "statement": "Whatever clients come to the ports of the simulator, in whatever order and however the three threads interleave: every host accepted on an HCI port gets exactly one new controller, with the configuration given for that port, attached once to each channel, and keeps it until its connection is noticed to be closed, or a test command deletes it; no controller serves two hosts, and what one client does leaves the devices of the others alone; a port that could be bound is listened to again after each client, one that could not be bound never serves anyone; one test client at a time is greeted, others are told that the channel is taken and get nothing else; each command is answered to the client that gave it; when the ports of hosts open, the simulation has a BR/EDR channel, an LE channel and two beacons on it; no two threads use the simulation at a time; the process goes on until a test client asks for its end.", "quantifier": "all configurations (any number of ports), all results of binding, all sequences of clients, commands, departures, failed connections and timer ticks, all interleavings of the three threads", "why_tests_cant": "Needs the interleavings of three threads and arbitrary sequences of clients; tests connect one or two clients in a fixed order", "anchors": ["desktop/test_environment.cc: TestEnvironment::TestEnvironment, initialize, SetUpHciServer, SetUpLinkLayerServer, SetUpTestChannel", "model/setup/test_channel_transport.cc: SetUp, OnCommandReady, SendResponse", "net/posix/posix_async_socket_server.cc", "model/setup/test_model.cc: AddHciConnection, AddLinkLayerConnection, OnConnectionClosed, RemoveDevice", "model/setup/test_command_handler.cc: HandleCommand"]}
{"id": "C111", "title": "Every device on a radio channel hears the packets of the others, each once and in the same order, and a beacon keeps its interval", "statement": "On a channel with any devices, whatever they send: when the calls in progress have returned, every device has heard, of each packet sent, one copy for each time it hears the sender, and nothing else, and never its own. For the devices of the simulator (controllers, beacons, clients of the link layer port) it has heard them in the order in which they were sent, at any time a beginning of that order, and every tick ends. With one layer of the type and no double attachment this means: once, for the packets of the other devices attached to the layer. A controller sends in its next tick, in order, what it was about to send. The signal strength is between -127 and 0 dBm. A beacon sends its packet at the first tick that is at least its interval after the last one, and at no other.", "quantifier": "all devices with any behaviour, all topologies that do not change meanwhile, all sequences of ticks and clock values, all interleavings of nested deliveries", "why_tests_cant": "Packets are delivered by nested calls: the order depends on who answers whom from within a reception, which the tests (two devices, one packet at a time) do not show", "anchors": ["model/setup/phy_layer.cc: PhyLayer::ComputeRssi, Send, Tick", "model/setup/phy_device.cc: PhyDevice::Tick, Receive, Send", "model/setup/test_model.cc: TestModel::Tick", "model/devices/beacon.cc: Beacon::Tick, ReceiveLinkLayerPacket", "model/devices/link_layer_socket_device.cc: Tick, ReceiveLinkLayerPacket", "model/controller/le_controller.cc: SendLeLinkLayerPacket, Tick, RunPendingTasks"]}
{"id": "C112", "title": "Event masks change what an LE host hears of, and nothing else", "statement": "Two LE controllers that differ at most in the event masks their hosts have set, and that get the same commands (but for the masks these set), packets and ticks at the same times, return the same statuses, send the same packets and stay the same but for the masks; one stops with a failed check exactly when the other does. Their hosts hear, in the same order, of every event both have unmasked and, when both have unmasked LE Connection Complete, of every outcome of an attempt to connect. A host hears exactly the events its masks let through among those a host that masks nothing would hear.", "quantifier": "all states, all masks of either host, all commands, packets, ticks and times, all histories", "why_tests_cant": "A mask test that guards an effect besides the event shows only for a particular mask, procedure and state; tests use one mask", "anchors": ["model/controller/le_controller.cc: IsEventUnmasked, IsLeEventUnmasked, ScanIncomingLeLegacyAdvertisingPdu, HandleLeConnection, LeScanning", "model/controller/le_advertiser.cc: LeAdvertising", "model/controller/le_controller.h: SetEventMask, SetEventMaskPage2, SetLeEventMask"]}
{"id": "C113", "title": "A socket works on its own file, closes it once, and calls back its own user", "statement": "Whatever sockets are made, moved, used, closed and destroyed, and whatever descriptors other code opens and closes meanwhile: a call on a socket reaches the file that socket was given and no other, though descriptors are used again; no two sockets have the same file; every file opened for a socket is either still held by one socket and open, or was closed exactly once. After a close a read says the end of the stream, a send fails, and a further close does nothing. The watcher calls back the socket that asked for it and has not stopped, on its own file, and never touches an object that is gone. Connected() says true exactly when a byte waits or the connection is up but silent. A connect that returns an open socket has an established connection, and every other one is closed, within the timeout", "quantifier": "all histories of operations on any number of sockets, all answers of the kernel (including interruptions), all reuse of descriptor numbers", "why_tests_cant": "A stale descriptor, a double close or a leak shows only when the number is used again in between; interrupted calls and stale values of errno are not produced by tests", "anchors": ["net/posix/posix_async_socket.cc: PosixAsyncSocket, Recv, Send, Connected, Close, WatchForNonBlockingRead, StopWatching", "net/posix/posix_async_socket_connector.cc: ConnectToRemoteServer"]}
{"id": "C114", "title": "Advertising keeps the interval that the host gave", "statement": "When one advertising set advertises on its own, enabled at the time t with the interval i (the smallest its host allows, at least 20 ms), its packet number n (from 0) is sent by the first tick from the time t + n i on that comes after packet n - 1, and never before, as long as the set stays enabled; a tick that stops the set, and anything but a tick, sends none. Legacy advertising on its own sends a packet at the first tick at which the interval has passed since the last packet, or since it was enabled. Packet number n of periodic advertising is not sent before n intervals have passed since it was enabled, and is sent by the first tick from then on that comes after packet n - 1 if its set is enabled. Two packets of a set are never closer than its interval, nor two packets of periodic advertising closer than the interval (in units of 1.25 ms) given for it", "quantifier": "all histories of commands, packets and ticks with any times, all parameters", "why_tests_cant": "The schedule depends on the times of all the ticks since the set was enabled; tests look at a few ticks of a regular timer", "anchors": ["model/controller/le_advertiser.cc: LeAdvertising, LeSetExtendedAdvertisingEnable, LeSetAdvertisingEnable, LeSetExtendedAdvertisingParameters, LeSetAdvertisingParameters", "model/controller/le_advertiser.h: ExtendedAdvertiser, LegacyAdvertiser"]}
