{"id": "C01", "title": "MAC header round-trip", "statement": "For each of the five frame types (CTA, RTS, CTS, ACK, DATA), reading a header back from the bytes produced by writing it yields the same type and the same value for every field that frame type carries, no matter what the receiving header object contained before and no matter which bytes follow in the buffer.", "quantifier": "all headers of the five types (all 2^48 addresses, all 16-bit/8-bit field values), all prior contents of the receiving header, all trailing byte strings", "why_tests_cant": "The space of headers, stale receiver contents and trailing bytes is far too large to enumerate; a test checks a handful of field values.", "anchors": ["model/thz-mac-header.cc:THzMacHeader::Serialize", "model/thz-mac-header.cc:THzMacHeader::Deserialize"]}
{"id": "C02", "title": "Advertised header size equals bytes written and bytes read", "statement": "For every header, the serialized size reported to the packet buffer equals the number of bytes the writer emits and the number of bytes the reader consumes.", "quantifier": "all headers, including every value of the 8-bit type field", "why_tests_cant": "A mismatch only shows for particular type values; tests exercise the legal ones only and cannot enumerate all headers.", "anchors": ["model/thz-mac-header.cc:THzMacHeader::GetSerializedSize", "model/thz-mac-header.cc:THzMacHeader::GetSize", "model/thz-mac-header.cc:THzMacHeader::Serialize", "model/thz-mac-header.cc:THzMacHeader::Deserialize"]}
{"id": "C03", "title": "Duration announced is the duration read by the peer", "statement": "The duration stored with SetDuration in a CTS, ACK or DATA header is the duration the receiver obtains with GetDuration after the header has travelled over the wire.", "quantifier": "all non-negative durations in nanoseconds", "why_tests_cant": "Truncation to 16 bits only shows for long durations, and the exact set of durations that survive is a universally quantified statement.", "anchors": ["model/thz-mac-header.cc:THzMacHeader::SetDuration", "model/thz-mac-header.cc:THzMacHeader::GetDuration"]}
{"id": "C04", "title": "Wire format is unambiguous", "statement": "Two headers whose encodings, followed by arbitrary payload, give the same byte string have the same type and agree on every carried field, and the payload is the same: no encoding of a legal header is a proper prefix of another.", "quantifier": "all pairs of headers of the five types and all pairs of payloads", "why_tests_cant": "Quantifies over pairs of headers and payloads.", "anchors": ["model/thz-mac-header.cc:THzMacHeader::Serialize"]}
{"id": "C05", "title": "Fields a frame type does not carry keep the receiver's old value", "statement": "Reading a header changes exactly the fields its frame type carries: the others (e.g. the duration when an RTS arrives, the sequence number when a CTA arrives) are left as they were in the receiving header object.", "quantifier": "all byte strings with a legal type byte and all prior receiver contents", "why_tests_cant": "Quantifies over all stale contents; a test sees only whatever the stack happened to contain.", "anchors": ["model/thz-mac-header.cc:THzMacHeader::Deserialize"]}
{"id": "C06", "title": "Duplicate suppression: at most one delivery per source and sequence number", "statement": "Whatever data frames arrive in whatever order, the sequence numbers accepted as new from one source are strictly increasing, so no (source, sequence number) pair is ever handed to the upper layer twice.", "quantifier": "all finite histories of (source address, sequence number) arrivals, any number of sources, any interleaving", "why_tests_cant": "Requires all arrival orders and unbounded histories.", "anchors": ["model/thz-mac-nano.cc:THzMacNano::IsNewSequence", "model/thz-mac-macro.cc:THzMacMacro::IsNewSequence", "model/thz-mac-macro-ap.cc:THzMacMacroAp::IsNewSequence", "model/thz-mac-macro-client.cc:THzMacMacroClient::IsNewSequence"]}
{"id": "C07", "title": "Duplicate suppression treats sources independently", "statement": "Whether a data frame is accepted as new depends only on the earlier frames of the same source; frames of other sources can be inserted or removed anywhere in the history without changing any decision for this source.", "quantifier": "all histories, all sources, all interleavings with other sources", "why_tests_cant": "A non-interference statement over all pairs of histories.", "anchors": ["model/thz-mac-nano.cc:THzMacNano::IsNewSequence"]}
{"id": "C08", "title": "A data frame that was never received before is delivered", "statement": "A data frame whose (source, sequence number) was never received before is accepted as new and handed up, in particular however many packets the source has sent so far.", "quantifier": "all arrival histories, of any length", "why_tests_cant": "The failure needs either a reordering or more than 65535 packets from one source.", "anchors": ["model/thz-mac-nano.cc:THzMacNano::IsNewSequence"]}
{"id": "C09", "title": "Stored energy never becomes negative", "statement": "With non-negative initial energy, harvesting amount, per-pulse costs, coding weight and packet lengths, the remaining energy is never negative (and never NaN while finite), computed in IEEE-754 double arithmetic with its roundings as the code does.", "quantifier": "all finite sequences of harvest/book/return calls with any non-negative double arguments", "why_tests_cant": "Needs every sequence of operations and every rounding of binary64 arithmetic.", "anchors": ["model/thz-energy-model.cc:THzEnergyModel::BookEnergy", "model/thz-energy-model.cc:THzEnergyModel::ReturnEnergy", "model/thz-energy-model.cc:THzEnergyModel::HarvestEnergy", "model/thz-energy-model.cc:THzEnergyModel::DoInitialize"]}
{"id": "C10", "title": "Booking energy is all-or-nothing", "statement": "BookEnergy returns true exactly when the remaining energy covers the cost, and then deducts exactly that cost; otherwise it returns false and leaves the remaining energy unchanged.", "quantifier": "all energy states and all packet lengths", "why_tests_cant": "Quantifies over all amounts, including the boundary where the cost equals the stored energy.", "anchors": ["model/thz-energy-model.cc:THzEnergyModel::BookEnergy"]}
{"id": "C11", "title": "Energy conservation", "statement": "At any time the remaining energy equals initial energy + harvested + returned - successfully booked energy, and returning what was just booked restores the previous level (in exact arithmetic).", "quantifier": "all finite sequences of harvest/book/return calls", "why_tests_cant": "An invariant over unbounded call histories.", "anchors": ["model/thz-energy-model.cc:THzEnergyModel::BookEnergy", "model/thz-energy-model.cc:THzEnergyModel::ReturnEnergy", "model/thz-energy-model.cc:THzEnergyModel::HarvestEnergy"]}
{"id": "C12", "title": "The MAC is told when enough energy has been harvested", "statement": "Whenever harvesting takes the remaining energy from below the callback level to at or above it, the MAC's energy callback is invoked, so that a packet waiting for energy is sent.", "quantifier": "all harvest/book/return histories and all settings of harvesting amount and callback level", "why_tests_cant": "The failing histories are those where the level is stepped over; which histories those are is a statement over all of them.", "anchors": ["model/thz-energy-model.cc:THzEnergyModel::HarvestEnergy"]}
{"id": "C13", "title": "Nano MAC queue never exceeds QueueLimit", "statement": "In every execution of the nano MAC the number of queued packets never exceeds the configured QueueLimit.", "quantifier": "all executions: any interleaving of Enqueue calls, received frames, energy outcomes, and timer events", "why_tests_cant": "Unbounded executions with arbitrary interleavings.", "anchors": ["model/thz-mac-nano.cc:THzMacNano::Enqueue", "model/thz-mac-nano.cc:THzMacNano::SendDataDone"]}
{"id": "C14", "title": "Enqueue's return value tells whether the packet was queued", "statement": "Nano MAC Enqueue returns true exactly when the packet has been added to the transmit queue; when it returns false the MAC state is unchanged.", "quantifier": "all reachable states, packets (any size) and destinations", "why_tests_cant": "Depends on packet size and queue state; the exception is a single size value.", "anchors": ["model/thz-mac-nano.cc:THzMacNano::Enqueue"]}
{"id": "C15", "title": "Nano MAC accounting: accepted = succeeded + discarded + pending", "statement": "At every moment the number of packets accepted for transmission equals the number reported as successfully sent plus the number reported as discarded plus the number still queued; the queue and the retry-tracking list always hold the same packets in the same order, and no packet is reported twice.", "quantifier": "all executions of one nano MAC under an arbitrary environment (frames, timers, energy)", "why_tests_cant": "An inductive invariant over unbounded executions with stale timers and duplicate ACKs.", "anchors": ["model/thz-mac-nano.cc:THzMacNano::Enqueue", "model/thz-mac-nano.cc:THzMacNano::SendDataDone", "model/thz-mac-nano.cc:THzMacNano::ReceiveAck", "model/thz-mac-nano.cc:THzMacNano::AckTimeout", "model/thz-mac-nano.cc:THzMacNano::CtsTimeout"]}
{"id": "C16", "title": "Nano MAC retry limit", "statement": "While at most 65536 packets have been accepted (sequence numbers distinct), a pending packet has always seen fewer timeouts than DataRetryLimit (limit at least 1); it is reported as discarded exactly at the timeout that makes the count reach the limit, and never otherwise.", "quantifier": "all executions of one nano MAC with at most 65536 accepted packets, all retry limits from 1", "why_tests_cant": "Unbounded executions, arbitrary timer interleavings.", "anchors": ["model/thz-mac-nano.cc:THzMacNano::CtsTimeout", "model/thz-mac-nano.cc:THzMacNano::AckTimeout"]}
{"id": "C17", "title": "Nano MAC backoff window", "statement": "With DataRetryLimit at most 32, after its k-th timeout (k below the limit) a packet is rescheduled, after at least one and at most 2^k slot times.", "quantifier": "all executions with at most 65536 accepted packets, all random draws, all retry counts below the limit", "why_tests_cant": "Quantifies over all random draws and retry counts.", "anchors": ["model/thz-mac-nano.cc:THzMacNano::Backoff"]}
{"id": "C18", "title": "Nano MAC transmits in order per destination", "statement": "As long as fewer than 65536 packets have been accepted, a DATA frame or RTS for a packet is never put on the air while a packet accepted earlier for the same destination is still pending.", "quantifier": "all executions with fewer than 65536 accepted packets, arbitrary losses, timeouts and energy shortages", "why_tests_cant": "A safety invariant over all interleavings of timers, ACKs and energy callbacks.", "anchors": ["model/thz-mac-nano.cc:THzMacNano::Enqueue", "model/thz-mac-nano.cc:THzMacNano::SendDataDone", "model/thz-mac-nano.cc:THzMacNano::TxFirstPacket", "model/thz-mac-nano.cc:THzMacNano::CheckResources", "model/thz-mac-nano.cc:THzMacNano::ReceiveCts"]}
{"id": "C19", "title": "End to end: a packet reported as sent was delivered exactly once", "statement": "In a network of nano nodes over a channel that may lose, delay, duplicate and reorder frames, when a sender (fewer than 65536 accepted packets) reports success for a unicast packet, the destination node has handed exactly that packet up exactly once.", "quantifier": "all executions of a network with any number of nodes, all channel behaviours, all energy outcomes, all timer orders", "why_tests_cant": "A distributed-system property over all schedules, losses and reorderings.", "anchors": ["model/thz-mac-nano.cc:THzMacNano::ReceiveData", "model/thz-mac-nano.cc:THzMacNano::ReceiveAck", "model/thz-mac-nano.cc:THzMacNano::SendDataDone", "model/thz-mac-nano.cc:THzMacNano::IsNewSequence"]}
{"id": "C20", "title": "End to end: at-most-once and genuine delivery", "statement": "In the same network, every packet handed up at a node was accepted at the node named as its source for a destination equal to that node or broadcast, and no accepted packet is handed up more than once at any node.", "quantifier": "all executions of the network, senders below 65536 accepted packets", "why_tests_cant": "A distributed-system property over all schedules.", "anchors": ["model/thz-mac-nano.cc:THzMacNano::ReceiveData", "model/thz-mac-nano.cc:THzMacNano::IsNewSequence", "model/thz-mac-nano.cc:THzMacNano::Enqueue"]}
{"id": "C21", "title": "Every accepted packet is eventually transmitted", "statement": "With unlimited energy and a loss-free channel every packet accepted by the nano MAC is eventually sent; the MAC never becomes quiescent with packets left in its queue.", "quantifier": "all enqueue patterns", "why_tests_cant": "A liveness property: a test sees only finite executions and would have to pick the failing pattern.", "anchors": ["model/thz-mac-nano.cc:THzMacNano::Enqueue", "model/thz-mac-nano.cc:THzMacNano::SendDataDone"]}
{"id": "C22", "title": "A broadcast packet leaves the queue after it was sent", "statement": "After a broadcast packet has been transmitted it is removed from the queue and packets queued behind it are served.", "quantifier": "all executions", "why_tests_cant": "Absence of progress must be shown for every continuation.", "anchors": ["model/thz-mac-nano.cc:THzMacNano::SendData", "model/thz-mac-nano.cc:THzMacNano::TxFirstPacket", "model/thz-mac-nano.cc:THzMacNano::SendDataDone"]}
{"id": "C23", "title": "No transmission of a packet after it was reported as done", "statement": "Once a packet has been reported as successful or discarded, no further DATA or RTS frame for it is put on the air.", "quantifier": "all executions", "why_tests_cant": "Depends on stale timers whose interleavings cannot be enumerated.", "anchors": ["model/thz-mac-nano.cc:THzMacNano::Backoff", "model/thz-mac-nano.cc:THzMacNano::CheckResources", "model/thz-mac-nano.cc:THzMacNano::SendDataDone"]}
{"id": "C24", "title": "Every DATA transmission is paid for", "statement": "Every DATA frame the nano MAC puts on the air was preceded by a successful energy booking made for that transmission attempt.", "quantifier": "all executions, with RTS enabled and disabled", "why_tests_cant": "Late or duplicated CTS frames are needed to break it; all arrival orders must be considered.", "anchors": ["model/thz-mac-nano.cc:THzMacNano::CheckResources", "model/thz-mac-nano.cc:THzMacNano::ReceiveCts", "model/thz-mac-nano.cc:THzMacNano::SendData"]}
{"id": "C25", "title": "Acknowledgement policy of the nano receiver", "statement": "A node sends an ACK only in direct response to a correctly received DATA frame whose destination is its own unicast address, the ACK goes to that frame's source with that frame's sequence number, and (energy permitting) every such frame, duplicate or not, is acknowledged; broadcast data is never acknowledged.", "quantifier": "all states and all received frames", "why_tests_cant": "Quantifies over all frames and states.", "anchors": ["model/thz-mac-nano.cc:THzMacNano::ReceiveData", "model/thz-mac-nano.cc:THzMacNano::SendAck"]}
{"id": "C26", "title": "Frames for other nodes do not disturb a nano MAC", "statement": "A received frame whose destination is neither this node nor broadcast, or which was received with errors, changes nothing in the MAC (queue, retry counts, timers, duplicate filter, statistics) and causes no transmission and no delivery; at most reception energy is spent.", "quantifier": "all states, all frames", "why_tests_cant": "Quantifies over all states and frames.", "anchors": ["model/thz-mac-nano.cc:THzMacNano::ReceiveRts", "model/thz-mac-nano.cc:THzMacNano::ReceiveCts", "model/thz-mac-nano.cc:THzMacNano::ReceiveData", "model/thz-mac-nano.cc:THzMacNano::ReceiveAck"]}
{"id": "C27", "title": "Timeout refunds never exceed what was booked", "statement": "The energy returned on a CTS, ACK or DATA timeout never exceeds the part of the booking that was made for the frames that did not happen, so the total energy never exceeds initial plus harvested energy.", "quantifier": "all executions, all FrameLength settings, all packet sizes", "why_tests_cant": "Depends on sizes and on which timers fire; conservation over unbounded executions.", "anchors": ["model/thz-mac-nano.cc:THzMacNano::CtsTimeout", "model/thz-mac-nano.cc:THzMacNano::AckTimeout", "model/thz-mac-nano.cc:THzMacNano::DataTimeout", "model/thz-mac-nano.cc:THzMacNano::CheckResources"]}
{"id": "C28", "title": "Pulse times are sorted correctly", "statement": "SortArray leaves the array a non-decreasing permutation of its input and returns it.", "quantifier": "all arrays of any length", "why_tests_cant": "All inputs of all lengths.", "anchors": ["model/thz-phy-nano.cc:THzPhyNano::SortArray"]}
{"id": "C29", "title": "Interleaving slot search stays inside its array", "statement": "The search for a free interleaving slot never reads outside the array of pulse times.", "quantifier": "all sets of ongoing transmissions and receptions (starting in the past or scheduled in the future), all positive symbol and pulse durations", "why_tests_cant": "The loop bound allows one index past the end; only an argument about the sorted sentinel shows it is not used, for all inputs.", "anchors": ["model/thz-phy-nano.cc:THzPhyNano::SendPacket"]}
{"id": "C30", "title": "Interleaved transmission does not overlap ongoing ones", "statement": "The transmission slot chosen for a new packet starts within the next symbol and its pulse train never overlaps the pulse train of any ongoing transmission or reception.", "quantifier": "all sets of ongoing transmissions/receptions, all times, all (infinitely many) symbol periods", "why_tests_cant": "Overlap must be excluded for every future symbol and every phase combination.", "anchors": ["model/thz-phy-nano.cc:THzPhyNano::SendPacket"]}
{"id": "C31", "title": "A transmission is refused only when no slot is free", "statement": "SendPacket returns false only when every start time within the next symbol would overlap an ongoing pulse train.", "quantifier": "all sets of ongoing transmissions and receptions", "why_tests_cant": "Quantifies over all candidate slots and all configurations.", "anchors": ["model/thz-phy-nano.cc:THzPhyNano::SendPacket"]}
{"id": "C32", "title": "Half-duplex drop only on real overlap", "statement": "A reception is dropped silently because of the node's own transmissions exactly when its pulse train overlaps one of them.", "quantifier": "all sets of ongoing transmissions, including ones scheduled for the near future", "why_tests_cant": "Requires all phases; the failing case needs an interleaved transmission that has not started yet.", "anchors": ["model/thz-phy-nano.cc:THzPhyNano::ReceivePacket"]}
{"id": "C33", "title": "Every accepted reception is reported to the MAC exactly once", "statement": "Each reception that was not dropped at its start is reported to the MAC exactly once at its end, as failed exactly when it was marked collided, and is then forgotten; dropped receptions are never reported; the transmission list holds exactly the transmissions whose end has not come yet.", "quantifier": "all executions of start/end events with any number of concurrent receptions", "why_tests_cant": "An invariant over unbounded event histories.", "anchors": ["model/thz-phy-nano.cc:THzPhyNano::ReceivePacket", "model/thz-phy-nano.cc:THzPhyNano::ReceivePacketDone", "model/thz-phy-nano.cc:THzPhyNano::DeleteOngoingTx"]}
{"id": "C34", "title": "Channel delivers each transmission to every other device exactly once", "statement": "A transmission is announced (start and end) exactly once to every attached device other than the sender's and never to the sender; the sender is told exactly once that the transmission is over; the end notification comes exactly the transmission duration after the start notification, which comes after the propagation delay.", "quantifier": "all device lists, all senders, all executions", "why_tests_cant": "All network sizes and all event interleavings.", "anchors": ["model/thz-channel.cc:THzChannel::SendPacket", "model/thz-channel.cc:THzChannel::ReceivePacket", "model/thz-channel.cc:THzChannel::ReceivePacketDone", "model/thz-channel.cc:THzChannel::SendPacketDone"]}
{"id": "C35", "title": "Channel's list of signals in flight is exact", "statement": "At any moment the channel's record of ongoing receptions contains exactly one entry for each reception that has started and whose removal has not been executed; when the channel is quiet the record is empty.", "quantifier": "all executions with distinct packets per transmission", "why_tests_cant": "Unbounded histories of overlapping transmissions.", "anchors": ["model/thz-channel.cc:THzChannel::ReceivePacket", "model/thz-channel.cc:THzChannel::DeleteNoiseEntry"]}
{"id": "C36", "title": "Device send/receive round-trip", "statement": "A packet given to Send with a protocol number is handed up at the destination device with the same payload and the same protocol number.", "quantifier": "all packets (any size) and protocol numbers", "why_tests_cant": "The exception is a single packet size.", "anchors": ["model/thz-net-device.cc:THzNetDevice::Send", "model/thz-net-device.cc:THzNetDevice::ForwardUp"]}
{"id": "C37", "title": "Device filters frames for other hosts", "statement": "The device hands a received packet up, and traces it as received, exactly when its destination is broadcast, a group address or the device's own address.", "quantifier": "all destination addresses", "why_tests_cant": "All 2^48 addresses.", "anchors": ["model/thz-net-device.cc:THzNetDevice::ForwardUp"]}
{"id": "C38", "title": "UDP client numbers its datagrams", "statement": "The n-th datagram successfully sent by the THz UDP client carries sequence number n, so the server's loss count is meaningful.", "quantifier": "all executions of any length", "why_tests_cant": "Quantifies over all executions.", "anchors": ["model/thz-udp-client.cc:THzUdpClient::Send"]}
{"id": "C39", "title": "Trace client sends every byte of each trace entry", "statement": "For each trace entry the trace client sends datagrams of at most MaxPacketSize bytes whose sizes add up to the entry's frame size, numbered consecutively.", "quantifier": "all traces, all frame sizes (16 bit), all maximum packet sizes", "why_tests_cant": "Division and remainder corner cases over all sizes.", "anchors": ["model/thz-udp-trace-client.cc:THzUdpTraceClient::Send", "model/thz-udp-trace-client.cc:THzUdpTraceClient::SendPacket"]}
{"id": "C40", "title": "Trace client is safe to start after SetRemote", "statement": "After configuring the trace file and the remote address in any order, starting the client performs only defined operations and each activation sends finitely many datagrams before rescheduling itself.", "quantifier": "all configuration call orders and all traces", "why_tests_cant": "Requires all call orders and all traces (termination).", "anchors": ["model/thz-udp-trace-client.cc:THzUdpTraceClient::SetRemote", "model/thz-udp-trace-client.cc:THzUdpTraceClient::Send", "model/thz-udp-trace-client.cc:THzUdpTraceClient::LoadTrace"]}
{"id": "C41", "title": "Traffic generator never addresses its own node", "statement": "The traffic generator picks a destination different from its own node and always terminates its selection with probability one.", "quantifier": "all node containers, all random draws", "why_tests_cant": "All containers and all infinite random sequences.", "anchors": ["model/traffic-generator.cc:TrafficGenerator::Generate"]}
{"id": "C42", "title": "Energy is harvested at the configured rate", "statement": "After initialisation the energy model adds EnergyHarvestingAmount once per PeriodicEnergyUpdateInterval: n harvests span at least n-1 intervals.", "quantifier": "all interleavings of initialisation, harvest events, bookings and returns", "why_tests_cant": "whether a second harvest chain exists depends on how often the initialiser is reached over a whole run and holds for every later interval; a test looks at one window of one run", "anchors": ["model/thz-energy-model.cc: THzEnergyModel::THzEnergyModel, DoInitialize, HarvestEnergy", "helper/thz-energy-model-helper.cc: Install"]}
{"id": "C43", "title": "Success is reported only for a packet its destination has acknowledged", "statement": "When the nano MAC reports a packet as successfully sent, the packet has been transmitted and an ACK for it has arrived from its destination - however many packets the node has sent so far.", "quantifier": "all executions of one nano MAC of any length, environment answering only what was sent", "why_tests_cant": "The 16-bit sequence numbers wrap after 65536 packets; whether an old and a new packet with the same number can be pending together depends on the whole history.", "anchors": ["model/thz-mac-nano.cc:THzMacNano::SendDataDone", "model/thz-mac-nano.cc:THzMacNano::ReceiveAck", "model/thz-mac-nano.cc:THzMacNano::Enqueue"]}
{"id": "C44", "title": "End to end: packets of one source are delivered in order", "statement": "In a network of nano nodes over a channel that may lose, delay, duplicate and reorder frames, the packets of one source (at most 65535 accepted packets) that a node hands up are handed up in the order in which the source accepted them.", "quantifier": "all executions of a network with any number of nodes, all channel behaviours and timer orders", "why_tests_cant": "Orders of arrival, retransmission and loss are unbounded.", "anchors": ["model/thz-mac-nano.cc:THzMacNano::ReceiveData", "model/thz-mac-nano.cc:THzMacNano::IsNewSequence", "model/thz-mac-nano.cc:THzMacNano::Enqueue"]}
{"id": "C45", "title": "Success means delivered, however long the sender has been running", "statement": "When a nano node reports success for a unicast packet, the destination has handed the packet up - also after more than 65536 packets.", "quantifier": "all executions of a network, any number of packets", "why_tests_cant": "Needs more than 65536 packets between the same two nodes and a check of every one of them.", "anchors": ["model/thz-mac-nano.cc:THzMacNano::IsNewSequence", "model/thz-mac-nano.cc:THzMacNano::Enqueue", "model/thz-mac-nano.cc:THzMacNano::ReceiveData"]}
{"id": "C46", "title": "A collision is decided by the signals on the air", "statement": "Whether an accepted reception is marked as collided depends only on its power and on the powers of the receptions whose pulses coincide with it, and a mark is never removed.", "quantifier": "all executions with any number of concurrent receptions, all contents of uninitialised memory", "why_tests_cant": "The interference sum of a new reception starts from an uninitialised field; a test sees only one content of that memory.", "anchors": ["model/thz-phy-nano.cc:THzPhyNano::ReceivePacket"]}
{"id": "C47", "title": "SinrTh is a threshold in dB", "statement": "The nano PHY rejects a signal exactly when its signal-to-interference-and-noise ratio in dB is below the attribute SinrTh, which is documented as being in dB.", "quantifier": "all thresholds, all signal and noise powers", "why_tests_cant": "The default value 10 is the one value at which the ratio and its dB value agree, so tests with defaults pass.", "anchors": ["model/thz-phy-nano.cc:THzPhyNano::ReceivePacket", "model/thz-phy-nano.cc:THzPhyNano::GetTypeId"]}
{"id": "C48", "title": "Disposing of a device leaves the channel intact", "statement": "After one device is disposed of, transmissions already on their way and later ones reach the remaining devices without undefined behaviour.", "quantifier": "all executions, all moments of disposal", "why_tests_cant": "The failure needs a disposal while a signal is in flight; the suite never disposes of devices during a simulation.", "anchors": ["model/thz-net-device.cc:THzNetDevice::Clear", "model/thz-channel.cc:THzChannel::Clear", "model/thz-channel.cc:THzChannel::ReceivePacket"]}
{"id": "C49", "title": "UDP client keeps sending until stopped", "statement": "Between StartApplication and StopApplication the THz UDP client always has a next transmission scheduled, and after StopApplication it sends nothing.", "quantifier": "all executions, all answers of the socket", "why_tests_cant": "Quantifies over all histories of socket errors.", "anchors": ["model/thz-udp-client.cc:THzUdpClient::Send", "model/thz-udp-client.cc:THzUdpClient::StartApplication", "model/thz-udp-client.cc:THzUdpClient::StopApplication"]}
{"id": "C50", "title": "Trace file is replayed as written", "statement": "After a trace file is loaded, the trace consists of exactly one entry per line of the file, in the order of the file and with the frame sizes of the file.", "quantifier": "all trace files, with and without a final newline, loaded in any state", "why_tests_cant": "All file contents; the error depends on the last byte of the file.", "anchors": ["model/thz-udp-trace-client.cc:THzUdpTraceClient::LoadTrace"]}
{"id": "C51", "title": "UDP server counts exactly while running", "statement": "The server counts every non-empty datagram once while it runs and none after StopApplication.", "quantifier": "all executions, all datagrams over IPv4 and IPv6", "why_tests_cant": "All interleavings of stop and datagrams; the error appears only for IPv6.", "anchors": ["model/thz-udp-server.cc:THzUdpServer::HandleRead", "model/thz-udp-server.cc:THzUdpServer::StopApplication"]}
{"id": "C52", "title": "Macro PHY senses every signal above threshold", "statement": "While a signal whose received power exceeds the carrier sense threshold is on the air at the node, the PHY does not report itself idle.", "quantifier": "all reachable states, all signals, all carrier sense thresholds", "why_tests_cant": "All overlaps of own transmissions and signals; a test fixes one timing.", "anchors": ["model/thz-phy-macro.cc:THzPhyMacro::ReceivePacket", "model/thz-phy-macro.cc:THzPhyMacro::SendPacket", "model/thz-phy-macro.cc:THzPhyMacro::SendPacketDone", "model/thz-phy-macro.cc:THzPhyMacro::ReceivePacketDone", "model/thz-phy-macro.cc:THzPhyMacro::IsIdle"]}
{"id": "C53", "title": "Macro PHY reports each packet once", "statement": "Each packet is reported to the MAC at most once, at the end of its reception, and only if it arrived.", "quantifier": "all executions, all packets, all SINR models", "why_tests_cant": "The number of overlapping packets is unbounded and the report depends on all of them.", "anchors": ["model/thz-phy-macro.cc:THzPhyMacro::ReceivePacketDone", "model/thz-phy-macro.cc:THzPhyMacro::ReceivePacket"]}
{"id": "C54", "title": "Macro PHY success means sufficient SINR", "statement": "A packet is reported as correctly received only if its power is sufficient with regard to the noise and the total power of all other signals that overlapped it.", "quantifier": "all executions, all signals and powers", "why_tests_cant": "Sum over arbitrarily many overlapping signals at arbitrary times.", "anchors": ["model/thz-phy-macro.cc:THzPhyMacro::ReceivePacketDone", "model/thz-phy-macro.cc:THzPhyMacro::CheckInterference"]}
{"id": "C55", "title": "Macro PHY is half duplex", "statement": "A packet that overlaps an own transmission is not reported as correctly received.", "quantifier": "all executions, all interleavings of own transmissions and receptions", "why_tests_cant": "All interleavings; the violation needs a third signal with particular timing.", "anchors": ["model/thz-phy-macro.cc:THzPhyMacro::SendPacket", "model/thz-phy-macro.cc:THzPhyMacro::ReceivePacket", "model/thz-phy-macro.cc:THzPhyMacro::ReceivePacketDone"]}
{"id": "C56", "title": "Macro PHY transmits one packet at a time", "statement": "Own transmissions never overlap: SendPacket refuses exactly while a transmission is in progress.", "quantifier": "all executions, all packet durations", "why_tests_cant": "An invariant over all executions.", "anchors": ["model/thz-phy-macro.cc:THzPhyMacro::SendPacket", "model/thz-phy-macro.cc:THzPhyMacro::SendPacketDone"]}
{"id": "C57", "title": "Macro PHY becomes idle again", "statement": "When neither an own transmission nor a reception is in progress, the PHY reports itself idle.", "quantifier": "all reachable states", "why_tests_cant": "Absence of stuck states in all executions.", "anchors": ["model/thz-phy-macro.cc:THzPhyMacro::IsIdle", "model/thz-phy-macro.cc:THzPhyMacro::ReceivePacketDone", "model/thz-phy-macro.cc:THzPhyMacro::SendPacketDone"]}
{"id": "C58", "title": "Macro PHY air times", "statement": "A data packet is sent at the rate of its modulation and coding scheme, a control packet at the basic rate, and longer packets take longer.", "quantifier": "all packet sizes, schemes and rate configurations", "why_tests_cant": "All sizes and configurations; the defaults of both rates coincide, which hides the error.", "anchors": ["model/thz-phy-macro.cc:THzPhyMacro::CalTxDuration", "model/thz-phy-macro.cc:THzPhyMacro::GetDataRate", "model/thz-phy-macro.cc:THzPhyMacro::GetBasicRate", "model/thz-phy-macro.cc:THzPhyMacro::SendPacket"]}
{"id": "C59", "title": "MAC is told the end of every reception", "statement": "Once a signal has ended whose start the macro PHY told the MAC, the PHY has told the MAC its end.", "quantifier": "all signals and transmissions in real time", "why_tests_cant": "Needs another signal that ends within a nanosecond, or an own transmission.", "anchors": ["model/thz-phy-macro.cc:THzPhyMacro::ReceivePacket", "model/thz-phy-macro.cc:THzPhyMacro::ReceivePacketDone"]}
{"id": "C60", "title": "Macro MAC accepts packets as announced", "statement": "Enqueue puts every packet of at least the minimum size (15000 bytes) at the end of the queue with a data header and the next sequence number, leaves everything unchanged for smaller packets, and returns whether the packet was queued.", "quantifier": "all reachable states, sizes and destinations", "why_tests_cant": "All sizes: the failure needs sizes beyond the range of a 16 bit integer, and the callers in the tests ignore the returned value.", "anchors": ["model/thz-mac-macro.cc:THzMacMacro::Enqueue"]}
{"id": "C61", "title": "Macro MAC queue limit and order", "statement": "The queue never holds more packets than QueueLimit, and holds accepted packets in the order of acceptance, none twice.", "quantifier": "all executions, all limits", "why_tests_cant": "Unbounded queue lengths and all interleavings of retransmissions.", "anchors": ["model/thz-mac-macro.cc:THzMacMacro::Enqueue", "model/thz-mac-macro.cc:THzMacMacro::SendDataDone", "model/thz-mac-macro.cc:THzMacMacro::CtsTimeout", "model/thz-mac-macro.cc:THzMacMacro::AckTimeout", "model/thz-mac-macro.cc:THzMacMacro::GetTypeId"]}
{"id": "C62", "title": "Macro MAC accounts for every packet", "statement": "At every time each accepted packet is either reported as sent, reported as discarded or still recorded, exactly one of these and once; the counters of sent and discarded packets equal the numbers of reports; the i-th packet has the i-th sequence number.", "quantifier": "all executions, any number of packets", "why_tests_cant": "An invariant over all executions and losses.", "anchors": ["model/thz-mac-macro.cc:THzMacMacro::Enqueue", "model/thz-mac-macro.cc:THzMacMacro::SendDataDone", "model/thz-mac-macro.cc:THzMacMacro::CtsTimeout", "model/thz-mac-macro.cc:THzMacMacro::AckTimeout", "model/thz-mac-macro.cc:THzMacMacro::ReceiveAck", "model/thz-mac-macro.cc:THzMacMacro::SendPacketDone"]}
{"id": "C63", "title": "Macro MAC honours the retry limits", "statement": "A packet is discarded only after RtsRetryLimit or DataRetryLimit failed attempts, and not tried more often.", "quantifier": "all executions, all values of the retry limits", "why_tests_cant": "Depends on attributes the tests leave at their defaults, and on arbitrary losses.", "anchors": ["model/thz-mac-macro.cc:THzMacMacro::CtsTimeout", "model/thz-mac-macro.cc:THzMacMacro::AckTimeout", "model/thz-mac-macro.cc:THzMacMacro::SendDataDone", "model/thz-mac-macro.cc:THzMacMacro::GetTypeId"]}
{"id": "C64", "title": "Macro MAC makes progress", "statement": "While a packet is queued, an event that continues its transmission is pending.", "quantifier": "all executions, any number of queued packets", "why_tests_cant": "A liveness invariant; the stuck state needs several queued packets and lost frames.", "anchors": ["model/thz-mac-macro.cc:THzMacMacro::CcaForDifs", "model/thz-mac-macro.cc:THzMacMacro::BackoffStart", "model/thz-mac-macro.cc:THzMacMacro::ChannelAccessGranted", "model/thz-mac-macro.cc:THzMacMacro::SendDataDone", "model/thz-mac-macro.cc:THzMacMacro::CtsTimeout", "model/thz-mac-macro.cc:THzMacMacro::AckTimeout", "model/thz-mac-macro.cc:THzMacMacro::StartOver"]}
{"id": "C65", "title": "Macro MAC respects reservations", "statement": "After a frame for another node that reserves the channel the node starts no RTS or data transmission before the reservation ends (up to two slots).", "quantifier": "all executions, all reservations, all times", "why_tests_cant": "All interleavings of backoff, receptions and enqueued packets.", "anchors": ["model/thz-mac-macro.cc:THzMacMacro::UpdateNav", "model/thz-mac-macro.cc:THzMacMacro::CcaForDifs", "model/thz-mac-macro.cc:THzMacMacro::BackoffStart", "model/thz-mac-macro.cc:THzMacMacro::ChannelBecomesBusy", "model/thz-mac-macro.cc:THzMacMacro::ReceiveCts", "model/thz-mac-macro.cc:THzMacMacro::ReceiveRts", "model/thz-mac-macro.cc:THzMacMacro::ReceiveData"]}
{"id": "C66", "title": "Macro MAC answers only requests", "statement": "CTS and ACK frames are sent only as answers: to each node and for each number never more CTS than received RTS and never more ACK than received data frames addressed to this node.", "quantifier": "all executions, nodes and numbers", "why_tests_cant": "Counts over unbounded executions.", "anchors": ["model/thz-mac-macro.cc:THzMacMacro::ReceiveRts", "model/thz-mac-macro.cc:THzMacMacro::SendCts", "model/thz-mac-macro.cc:THzMacMacro::ReceiveData", "model/thz-mac-macro.cc:THzMacMacro::SendAck"]}
{"id": "C67", "title": "Macro MAC delivers packets once and in order", "statement": "Every packet handed to the upper layer came in a data frame received without error for this node or for all, and packets of one source are handed up in the order of their numbers and at most once.", "quantifier": "all executions, any number of sources and retransmissions", "why_tests_cant": "All losses of acknowledgements and reorderings.", "anchors": ["model/thz-mac-macro.cc:THzMacMacro::ReceiveData", "model/thz-mac-macro.cc:THzMacMacro::IsNewSequence", "model/thz-mac-macro.cc:THzMacMacro::ReceivePacketDone"]}
{"id": "C68", "title": "Macro MAC reports success truthfully", "statement": "A packet is reported as sent only if it was sent and, unless a broadcast, an acknowledgement with its number was received by its sender.", "quantifier": "all executions with at most 65536 packets", "why_tests_cant": "All interleavings of timeouts and late acknowledgements.", "anchors": ["model/thz-mac-macro.cc:THzMacMacro::ReceiveAck", "model/thz-mac-macro.cc:THzMacMacro::SendDataDone", "model/thz-mac-macro.cc:THzMacMacro::SendPacketDone"]}
{"id": "C69", "title": "Macro MAC success means delivery", "statement": "In a network of macro MACs whose channel may lose, delay and repeat frames, a unicast packet reported as sent was handed up at its destination.", "quantifier": "all networks of any size, all executions", "why_tests_cant": "A property of the composition of arbitrarily many nodes.", "anchors": ["model/thz-mac-macro.cc:THzMacMacro::ReceiveAck", "model/thz-mac-macro.cc:THzMacMacro::SendAck", "model/thz-mac-macro.cc:THzMacMacro::ReceiveData", "model/thz-mac-macro.cc:THzMacMacro::IsNewSequence", "model/thz-mac-macro.cc:THzMacMacro::SendDataDone"]}
{"id": "C70", "title": "Macro MAC has no undefined behaviour", "statement": "No step dereferences an invalid iterator or a null packet or divides by zero.", "quantifier": "all executions with slots of at least 1 ns", "why_tests_cant": "Undefined behaviour need not show in a test run.", "anchors": ["model/thz-mac-macro.cc:THzMacMacro::SendDataDone", "model/thz-mac-macro.cc:THzMacMacro::ResultsRecord", "model/thz-mac-macro.cc:THzMacMacro::RoundOffTime", "model/thz-mac-macro.cc:THzMacMacro::SendPacketDone"]}
{"id": "C71", "title": "Macro MAC returns to receiving", "statement": "A node that has no packet to send turns its receiving antenna.", "quantifier": "all executions", "why_tests_cant": "Absence of dead states in all executions.", "anchors": ["model/thz-mac-macro.cc:THzMacMacro::Enqueue", "model/thz-mac-macro.cc:THzMacMacro::SetRxAntennaParameters", "model/thz-mac-macro.cc:THzMacMacro::SendDataDone"]}
{"id": "C72", "title": "Access point acknowledges only received data", "statement": "The access point sends to a node at most as many ACK with a sequence number as it received data packets with this number from the node without error.", "quantifier": "all executions, events in any order", "why_tests_cant": "An invariant over all executions of a queue that two handlers empty.", "anchors": ["model/thz-mac-macro-ap.cc:THzMacMacroAp::ReceiveData", "model/thz-mac-macro-ap.cc:THzMacMacroAp::SendAck", "model/thz-mac-macro-ap.cc:THzMacMacroAp::SendPacketDone", "model/thz-mac-macro-ap.cc:THzMacMacroAp::SectorTimeout", "model/thz-mac-macro-ap.cc:THzMacMacroAp::ReceivePacketDone"]}
{"id": "C73", "title": "Access point acknowledges all received data", "statement": "Every data packet received without error has been acknowledged, or its ACK is queued.", "quantifier": "all executions in real time", "why_tests_cant": "Needs a sector timeout during the reception of a further packet.", "anchors": ["model/thz-mac-macro-ap.cc:THzMacMacroAp::ReceiveData", "model/thz-mac-macro-ap.cc:THzMacMacroAp::SendAck", "model/thz-mac-macro-ap.cc:THzMacMacroAp::SendPacket", "model/thz-mac-macro-ap.cc:THzMacMacroAp::SectorTimeout"]}
{"id": "C74", "title": "Access point never stops turning", "statement": "At every time an event is pending that leads to a further turn of the receiving antenna.", "quantifier": "all executions in real time", "why_tests_cant": "Absence of dead states in all executions.", "anchors": ["model/thz-mac-macro-ap.cc:THzMacMacroAp::SectorTimeout", "model/thz-mac-macro-ap.cc:THzMacMacroAp::SendAck", "model/thz-mac-macro-ap.cc:THzMacMacroAp::SendPacketDone", "model/thz-mac-macro-ap.cc:THzMacMacroAp::TurnRxAntenna", "model/thz-mac-macro-ap.cc:THzMacMacroAp::WaitTimeExpired"]}
{"id": "C75", "title": "Access point serves one sector at a time", "statement": "At most one pending event leads to a further turn of the antenna, so there are no two interleaved rounds.", "quantifier": "all executions in real time with the 3-way handshake", "why_tests_cant": "An invariant over all executions and packet lengths.", "anchors": ["model/thz-mac-macro-ap.cc:THzMacMacroAp::SectorTimeout", "model/thz-mac-macro-ap.cc:THzMacMacroAp::SendAck", "model/thz-mac-macro-ap.cc:THzMacMacroAp::SendPacketDone", "model/thz-mac-macro-ap.cc:THzMacMacroAp::TurnRxAntenna", "model/thz-mac-macro-ap.cc:THzMacMacroAp::WaitTimeExpired", "model/thz-mac-macro-ap.cc:THzMacMacroAp::SendCts"]}
{"id": "C76", "title": "Access point announces every turn", "statement": "With every turn of the antenna a CTA is sent to all nodes; with the 3-way handshake it names the sector.", "quantifier": "all executions in real time", "why_tests_cant": "Needs a turn during a reception, or a reception whose end the PHY does not report.", "anchors": ["model/thz-mac-macro-ap.cc:THzMacMacroAp::TurnRxAntenna", "model/thz-mac-macro-ap.cc:THzMacMacroAp::SendCta1", "model/thz-mac-macro-ap.cc:THzMacMacroAp::SendCta3", "model/thz-mac-macro-ap.cc:THzMacMacroAp::SendPacket", "model/thz-mac-macro-ap.cc:THzMacMacroAp::ReceivePacket", "model/thz-mac-macro-ap.cc:THzMacMacroAp::ReceivePacketDone"]}
{"id": "C77", "title": "Granted slots do not overlap", "statement": "The data of two nodes to which the access point grants slots in one sector do not overlap at the access point.", "quantifier": "all executions, any number of nodes and all propagation delays up to PropDelay", "why_tests_cant": "All distances, rates and numbers of nodes.", "anchors": ["model/thz-mac-macro-ap.cc:THzMacMacroAp::WaitTimeExpired", "model/thz-mac-macro-ap.cc:THzMacMacroAp::SendCts", "model/thz-mac-macro-ap.cc:THzMacMacroAp::SelectMCS"]}
{"id": "C78", "title": "Granted slots end before the sector", "statement": "Granted data arrive before the timeout of the sector.", "quantifier": "all executions, any number of nodes and all propagation delays up to PropDelay", "why_tests_cant": "All distances, rates and numbers of nodes.", "anchors": ["model/thz-mac-macro-ap.cc:THzMacMacroAp::WaitTimeExpired", "model/thz-mac-macro-ap.cc:THzMacMacroAp::SendCts", "model/thz-mac-macro-ap.cc:THzMacMacroAp::SectorTimeout"]}
{"id": "C79", "title": "Rate adaptation is monotone", "statement": "A node with a weaker signal is never told to use a faster rate.", "quantifier": "all received powers, all increasing thresholds and rates", "why_tests_cant": "All powers and thresholds; the failure is below the lowest threshold.", "anchors": ["model/thz-mac-macro-ap.cc:THzMacMacroAp::SelectMCS"]}
{"id": "C80", "title": "Sectors are assigned by power", "statement": "After recording, exactly the nodes heard are assigned to a sector, each to one, in which it was heard with its highest power; nodes are told the sector they are assigned to.", "quantifier": "all executions, any number of nodes and sectors", "why_tests_cant": "All orders of receptions and all powers.", "anchors": ["model/thz-mac-macro-ap.cc:THzMacMacroAp::InitNodeMap", "model/thz-mac-macro-ap.cc:THzMacMacroAp::ReceiveRts", "model/thz-mac-macro-ap.cc:THzMacMacroAp::SendFeedbackCTA", "model/thz-mac-macro-ap.cc:THzMacMacroAp::TurnRxAntenna"]}
{"id": "C81", "title": "The antenna covers the circle", "statement": "In every round of 360/beamwidth turns the same sectors come in the same order.", "quantifier": "all executions, all beamwidths from 1 to 360 degrees", "why_tests_cant": "All beamwidths and arbitrarily many turns.", "anchors": ["model/thz-mac-macro-ap.cc:THzMacMacroAp::TurnRxAntenna", "model/thz-mac-macro-ap.cc:THzMacMacroAp::Init"]}
{"id": "C82", "title": "Access point delivers its packets", "statement": "Only data packets addressed to the access point are handed up: those with a number above all before from the same source, in the order of reception.", "quantifier": "all executions in real time", "why_tests_cant": "Unbounded histories; foreign frames do not occur in the tests.", "anchors": ["model/thz-mac-macro-ap.cc:THzMacMacroAp::ReceivePacketDone", "model/thz-mac-macro-ap.cc:THzMacMacroAp::ReceiveData", "model/thz-mac-macro-ap.cc:THzMacMacroAp::IsNewSequence"]}
{"id": "C83", "title": "Access point has no undefined behaviour", "statement": "No step takes the front of an empty list.", "quantifier": "all executions in real time", "why_tests_cant": "Undefined behaviour need not show in a test run.", "anchors": ["model/thz-mac-macro-ap.cc:THzMacMacroAp::SendAck", "model/thz-mac-macro-ap.cc:THzMacMacroAp::SectorTimeout", "model/thz-mac-macro-ap.cc:THzMacMacroAp::SendPacketDone"]}
{"id": "C84", "title": "Access point grants only what was requested", "statement": "The access point sends to a node at most as many CTS with a sequence number as it received RTS with this number from the node. The CTS tells the node to wait for the CTS of all nodes of the sector and for the data and backoff of the nodes before it, and names the rate for the power of its RTS.", "quantifier": "all executions, events in any order", "why_tests_cant": "An invariant over all executions and numbers of nodes.", "anchors": ["model/thz-mac-macro-ap.cc:THzMacMacroAp::ReceiveRts", "model/thz-mac-macro-ap.cc:THzMacMacroAp::WaitTimeExpired", "model/thz-mac-macro-ap.cc:THzMacMacroAp::SendCts"]}
{"id": "C85", "title": "Client takes packets as documented", "statement": "Enqueue returns true exactly if it takes the packet, QueueLimit bounds the queue, and packets less than 2^16 apart have different numbers.", "quantifier": "all executions, events in any order, any start of the counter", "why_tests_cant": "The return value is always false; the limit is never read; numbers are a statement about unbounded histories.", "anchors": ["model/thz-mac-macro-client.cc:THzMacMacroClient::Enqueue"]}
{"id": "C86", "title": "Client accounts for every packet", "statement": "Every packet taken is reported once as sent, or once as discarded, or still has its record; the counters agree with the reports modulo 2^16.", "quantifier": "all executions, events in any order", "why_tests_cant": "An accounting invariant over all executions.", "anchors": ["model/thz-mac-macro-client.cc:THzMacMacroClient::Enqueue", "model/thz-mac-macro-client.cc:THzMacMacroClient::SendDataDone", "model/thz-mac-macro-client.cc:THzMacMacroClient::ReceiveAck", "model/thz-mac-macro-client.cc:THzMacMacroClient::CtsTimeout", "model/thz-mac-macro-client.cc:THzMacMacroClient::AckTimeout"]}
{"id": "C87", "title": "Client reports success only if acknowledged", "statement": "A packet reported as sent was acknowledged: an ACK for this node with its number came after a data packet with that number had been sent.", "quantifier": "all executions, events in any order", "why_tests_cant": "An invariant over all executions.", "anchors": ["model/thz-mac-macro-client.cc:THzMacMacroClient::ReceiveAck", "model/thz-mac-macro-client.cc:THzMacMacroClient::SendDataDone", "model/thz-mac-macro-client.cc:THzMacMacroClient::SendPacketDone", "model/thz-mac-macro-client.cc:THzMacMacroClient::SendData"]}
{"id": "C88", "title": "Client respects its retry limits", "statement": "A packet is discarded only after RtsRetryLimit missing CTS or DataRetryLimit missing ACK.", "quantifier": "all executions, all limits", "why_tests_cant": "Needs a mixture of both kinds of failures.", "anchors": ["model/thz-mac-macro-client.cc:THzMacMacroClient::CtsTimeout", "model/thz-mac-macro-client.cc:THzMacMacroClient::AckTimeout"]}
{"id": "C89", "title": "Client counts only missing CTS", "statement": "Every CTS timeout belongs to an RTS that was sent.", "quantifier": "all executions in real time", "why_tests_cant": "Needs a reception that begins between the scheduling of an RTS and its time.", "anchors": ["model/thz-mac-macro-client.cc:THzMacMacroClient::ReceiveCta3", "model/thz-mac-macro-client.cc:THzMacMacroClient::SendRts", "model/thz-mac-macro-client.cc:THzMacMacroClient::SendPacket", "model/thz-mac-macro-client.cc:THzMacMacroClient::CtsTimeout"]}
{"id": "C90", "title": "Client sends RTS only if asked", "statement": "At most as many RTS as announcements and at most as many dummy RTS as dummy CTA; every RTS bears the address of the client and the number and destination of a packet it has taken.", "quantifier": "all executions, events in any order", "why_tests_cant": "A statement about all executions.", "anchors": ["model/thz-mac-macro-client.cc:THzMacMacroClient::ReceiveCta3", "model/thz-mac-macro-client.cc:THzMacMacroClient::SendRts", "model/thz-mac-macro-client.cc:THzMacMacroClient::SendPacket"]}
{"id": "C91", "title": "Client asks only for packets it has", "statement": "No RTS is sent for a packet that was already reported.", "quantifier": "all executions in real time", "why_tests_cant": "Needs the last allowed timeout at an announcement.", "anchors": ["model/thz-mac-macro-client.cc:THzMacMacroClient::ReceiveCta3", "model/thz-mac-macro-client.cc:THzMacMacroClient::CtsTimeout", "model/thz-mac-macro-client.cc:THzMacMacroClient::SendDataDone", "model/thz-mac-macro-client.cc:THzMacMacroClient::SendRts"]}
{"id": "C92", "title": "Client answers only announcements", "statement": "An RTS is scheduled only on an announcement, of the own sector if one was assigned, outside a backoff and within the slots of contention.", "quantifier": "all executions in real time", "why_tests_cant": "Needs feedback to another node that this one hears.", "anchors": ["model/thz-mac-macro-client.cc:THzMacMacroClient::ReceiveCta3", "model/thz-mac-macro-client.cc:THzMacMacroClient::ReceivePacketDone"]}
{"id": "C93", "title": "Client sends data only in its slot", "statement": "With the 3-way handshake data is sent only if granted by a CTS with its number, exactly after the duration in the CTS, with the modulation named in it, at most once for every CTS.", "quantifier": "all executions in real time", "why_tests_cant": "All executions; all durations.", "anchors": ["model/thz-mac-macro-client.cc:THzMacMacroClient::ReceiveCts", "model/thz-mac-macro-client.cc:THzMacMacroClient::SendData", "model/thz-mac-macro-client.cc:THzMacMacroClient::SendPacket"]}
{"id": "C94", "title": "Client does not send broadcast packets", "statement": "A packet for the broadcast address is never transmitted; in 1-way mode it blocks all packets behind it for ever.", "quantifier": "all executions, events in any order", "why_tests_cant": "Absence of transmissions in all continuations.", "anchors": ["model/thz-mac-macro-client.cc:THzMacMacroClient::ReceiveCta1", "model/thz-mac-macro-client.cc:THzMacMacroClient::SendData"]}
{"id": "C95", "title": "Backoff of a client ends", "statement": "A client in a backoff leaves it after finitely many announcements.", "quantifier": "all executions in real time, all continuations", "why_tests_cant": "Statement about all continuations; needs a late CTS.", "anchors": ["model/thz-mac-macro-client.cc:THzMacMacroClient::DecreaseBackoff", "model/thz-mac-macro-client.cc:THzMacMacroClient::ReceiveCta3", "model/thz-mac-macro-client.cc:THzMacMacroClient::ReceiveCta1", "model/thz-mac-macro-client.cc:THzMacMacroClient::CtsTimeout", "model/thz-mac-macro-client.cc:THzMacMacroClient::AckTimeout", "model/thz-mac-macro-client.cc:THzMacMacroClient::SendDataDone"]}
{"id": "C96", "title": "Length of the backoff of a client", "statement": "The remaining length of a backoff is from 1 to 2^retries.", "quantifier": "all executions in real time, all limits", "why_tests_cant": "16-bit conversion; needs the sixteenth retry and the largest draw.", "anchors": ["model/thz-mac-macro-client.cc:THzMacMacroClient::CtsTimeout", "model/thz-mac-macro-client.cc:THzMacMacroClient::AckTimeout", "model/thz-mac-macro-client.cc:THzMacMacroClient::DecreaseBackoff"]}
{"id": "C97", "title": "Client schedules no event in the past", "statement": "No event is scheduled with a negative delay.", "quantifier": "all executions in real time, all positions", "why_tests_cant": "All positions and orders of grants; ns-3 aborts in such a case.", "anchors": ["model/thz-mac-macro-client.cc:THzMacMacroClient::ReceiveCta1", "model/thz-mac-macro-client.cc:THzMacMacroClient::SendPacketDone", "model/thz-mac-macro-client.cc:THzMacMacroClient::ReceiveCts"]}
{"id": "C98", "title": "Client has no undefined behaviour", "statement": "No step dereferences an invalid iterator, shifts too far or takes the front of an empty list.", "quantifier": "all executions in real time", "why_tests_cant": "Undefined behaviour need not show in a test run.", "anchors": ["model/thz-mac-macro-client.cc:THzMacMacroClient::SendDataDone", "model/thz-mac-macro-client.cc:THzMacMacroClient::ReceiveCta3", "model/thz-mac-macro-client.cc:THzMacMacroClient::ReceiveCta1", "model/thz-mac-macro-client.cc:THzMacMacroClient::CtsTimeout", "model/thz-mac-macro-client.cc:THzMacMacroClient::AckTimeout", "model/thz-mac-macro-client.cc:THzMacMacroClient::ResultsRecord"]}
{"id": "C99", "title": "Client is first in, first out", "statement": "Packets are reported in the order in which they were taken.", "quantifier": "all executions in real time", "why_tests_cant": "An order of unbounded histories; needs an unsolicited CTS.", "anchors": ["model/thz-mac-macro-client.cc:THzMacMacroClient::Enqueue", "model/thz-mac-macro-client.cc:THzMacMacroClient::SendDataDone", "model/thz-mac-macro-client.cc:THzMacMacroClient::ReceiveCts", "model/thz-mac-macro-client.cc:THzMacMacroClient::ReceiveCta3"]}
{"id": "C100", "title": "Access point answers every RTS", "statement": "Without UseWhiteList, once no RTS waits and no CTS is scheduled, every RTS received without error was answered with a CTS.", "quantifier": "all executions in real time", "why_tests_cant": "Needs a reception that begins at the end of the time to wait for RTS.", "anchors": ["model/thz-mac-macro-ap.cc:THzMacMacroAp::ReceiveRts", "model/thz-mac-macro-ap.cc:THzMacMacroAp::WaitTimeExpired", "model/thz-mac-macro-ap.cc:THzMacMacroAp::SendCts", "model/thz-mac-macro-ap.cc:THzMacMacroAp::SendPacket"]}
{"id": "C101", "title": "Success means delivery in the macro scenario", "statement": "A packet that a client reports as sent was handed up by the access point. Every packet a client accepted was handed up, is reported as discarded, or is still held.", "quantifier": "all networks of an access point and clients that receive only what was sent, with loss, delay and repetition; as long as no number is used twice", "why_tests_cant": "All interleavings of any number of nodes; the counter of a client starts at an arbitrary value.", "anchors": ["model/thz-mac-macro-ap.cc:THzMacMacroAp::ReceiveData", "model/thz-mac-macro-ap.cc:THzMacMacroAp::SendAck", "model/thz-mac-macro-ap.cc:THzMacMacroAp::SendCts", "model/thz-mac-macro-client.cc:THzMacMacroClient::Enqueue", "model/thz-mac-macro-client.cc:THzMacMacroClient::ReceiveCts", "model/thz-mac-macro-client.cc:THzMacMacroClient::ReceiveAck", "model/thz-mac-macro-client.cc:THzMacMacroClient::SendDataDone"]}
{"id": "C102", "title": "Access point hands up genuine packets, once and in order", "statement": "A packet handed up was accepted by the client that is its source. No packet is handed up twice. Packets of one client are handed up in the order in which the client accepted them.", "quantifier": "all networks as in C101, any configuration, as long as no counter wraps", "why_tests_cant": "All interleavings of any number of nodes with loss, delay and repetition.", "anchors": ["model/thz-mac-macro-ap.cc:THzMacMacroAp::ReceiveData", "model/thz-mac-macro-client.cc:THzMacMacroClient::Enqueue", "model/thz-mac-macro-client.cc:THzMacMacroClient::SendData"]}
{"id": "C103", "title": "Sample bands divide the transmitted band", "statement": "The sample bands of the macro spectrum have positive width, adjoin one another and span the sub-bands of the channel; so do the bands of the waveform. The bands of a pulse do so for 3.9 THz from 0.1 THz on, up to one sub-band.", "quantifier": "all bandwidths, frequencies and numbers of samples", "why_tests_cant": "The default attributes are one point of an infinite space; the quotient of the integers matters.", "anchors": ["model/thz-spectrum-waveform.cc:THzSpectrumValueFactory::CreateTxPowerSpectralDensity", "model/thz-spectrum-waveform.cc:THzSpectrumValueFactory::THzSpectrumWaveformInitializer", "model/thz-spectrum-waveform.cc:THzSpectrumValueFactory::THzPulseSpectrumWaveformInitializer"]}
{"id": "C104", "title": "Flat spectrum has the transmit power", "statement": "What a receiver integrates from the flat macro spectrum without loss and gain is the transmit power.", "quantifier": "all bandwidths, powers and numbers of samples", "why_tests_cant": "Rounding of the number of sub-bands shows for some quotients only.", "anchors": ["model/thz-spectrum-waveform.cc:THzSpectrumValueFactory::CreateTxPowerSpectralDensity", "model/thz-spectrum-propagation-loss.cc:THzSpectrumPropagationLoss::CalcRxPowerDA"]}
{"id": "C105", "title": "Mask spectrum has the transmit power", "statement": "The spectrum of the mask has the transmit power, is written within its bands only, and each band once.", "quantifier": "all bandwidths and powers", "why_tests_cant": "Holds for some numbers of sub-bands only.", "anchors": ["model/thz-spectrum-waveform.cc:THzSpectrumValueFactory::CreateTxPowerSpectralDensityMask"]}
{"id": "C106", "title": "Pulse spectrum has the transmit power", "statement": "What a receiver integrates from the spectrum of a pulse without loss and gain is the transmit power.", "quantifier": "all shapes, bandwidths, powers and numbers of samples", "why_tests_cant": "Holds for all shapes of the pulse, or fails by a factor that depends on a quotient of integers.", "anchors": ["model/thz-spectrum-waveform.cc:THzSpectrumValueFactory::CalculateEnergyConstant", "model/thz-spectrum-waveform.cc:THzSpectrumValueFactory::CreatePulsePowerSpectralDensity", "model/thz-spectrum-waveform.cc:THzSpectrumValueFactory::THzPulseSpectrumWaveformInitializer", "model/thz-spectrum-propagation-loss.cc:THzSpectrumPropagationLoss::CalcRxPowerDA"]}
{"id": "C107", "title": "Absorption loss depends on frequency and distance only", "statement": "The absorption loss of a frequency and a distance does not depend on the calls before, which fill a map of coefficients.", "quantifier": "all sequences of calls, all tables", "why_tests_cant": "Needs all histories of the map.", "anchors": ["model/thz-spectrum-propagation-loss.cc:THzSpectrumPropagationLoss::CalculateAbsLoss", "model/thz-spectrum-propagation-loss.cc:THzSpectrumPropagationLoss::mapContainsKey"]}
{"id": "C108", "title": "Coefficient of the nearest tabulated frequency", "statement": "The absorption coefficient used for a frequency is that of the nearest tabulated frequency, if one is within 989.4 MHz; otherwise there is no absorption.", "quantifier": "all tables, frequencies and distances", "why_tests_cant": "The error is a shift by one or more entries of a table with 65537 entries, invisible in plots.", "anchors": ["model/thz-spectrum-propagation-loss.cc:THzSpectrumPropagationLoss::CalculateAbsLoss"]}
{"id": "C109", "title": "Received power obeys the path loss law", "statement": "The received power is the transmitted density divided by the square of 4 pi f d / c and by exp (k d), integrated, times the gain. It decreases with the distance and is without gain not more than the transmitted power.", "quantifier": "all spectra, tables, distances and gains", "why_tests_cant": "Inequalities over all real powers and distances.", "anchors": ["model/thz-spectrum-propagation-loss.cc:THzSpectrumPropagationLoss::CalcRxPowerDA", "model/thz-spectrum-propagation-loss.cc:THzSpectrumPropagationLoss::CalcRxPowerSpectralDensity", "model/thz-spectrum-propagation-loss.cc:THzSpectrumPropagationLoss::CalculateSpreadLoss"]}
{"id": "C110", "title": "Beamwidth is the 3 dB beamwidth", "statement": "Half of GetBeamwidth off its orientation, to both sides, the gain of the antenna is 3 dB less than MaxGain; it is MaxGain at its orientation and decreases to both sides. The loops that normalise angles end.", "quantifier": "all angles, beamwidths, gains and sequences of setters", "why_tests_cant": "A statement about a transcendental function of all angles.", "anchors": ["model/thz-dir-antenna.cc:THzDirectionalAntenna::SetBeamwidth", "model/thz-dir-antenna.cc:THzDirectionalAntenna::GetRxGainDb", "model/thz-dir-antenna.cc:THzDirectionalAntenna::GetTypeId"]}
{"id": "C111", "title": "Only its own MAC layer turns an antenna", "statement": "Each receiving antenna has the orientation its own MAC layer gave it last, whatever other nodes send.", "quantifier": "all executions of any number of nodes", "why_tests_cant": "Needs several receivers of which one sends while the others wait.", "anchors": ["model/thz-channel.cc:THzChannel::SendPacket", "model/thz-dir-antenna.cc:THzDirectionalAntenna::GetAntennaGain", "model/thz-dir-antenna.cc:THzDirectionalAntenna::TuneRxOrientation"]}
{"id": "C112", "title": "Gain between two nodes depends on these nodes only", "statement": "The antenna gain between two nodes is determined by their two antennas and positions; neither other nodes nor earlier packets matter.", "quantifier": "all states of the channel and numbers of nodes", "why_tests_cant": "Needs a value left over from an earlier packet of other nodes.", "anchors": ["model/thz-channel.cc:THzChannel::SendPacket", "model/thz-dir-antenna.cc:THzDirectionalAntenna::GetAntennaGain"]}
{"id": "C113", "title": "Each antenna contributes its own gain", "statement": "The antenna gain between a directional receiver and a directional transmitter is the gain of the first in the direction of the second, plus MaxGain of the second. Between omnidirectional antennas it is MaxGain of both. It is the same in both directions.", "quantifier": "all antennas, directions and states of the channel", "why_tests_cant": "The examples use the same antenna for all nodes, for which two wrong parameters do not show.", "anchors": ["model/thz-channel.cc:THzChannel::SendPacket", "model/thz-dir-antenna.cc:THzDirectionalAntenna::GetAntennaGain", "model/thz-dir-antenna.cc:THzDirectionalAntenna::GetRxGainDb"]}
{"id": "C114", "title": "End to end through PHY and channel", "statement": "In a network of nano nodes over their PHYs and the channel, each packet handed up was accepted at its source and addressed to the node, is handed up at most once, exactly once if its source reports it as sent, and in the order it was accepted.", "quantifier": "any number of nodes, all executions, propagation delays, powers and interference", "why_tests_cant": "Tests of the MAC layer replace PHY and channel by stubs; tests of the whole see few of the delays and collisions.", "anchors": ["model/thz-mac-nano.cc:THzMacNano::ReceivePacket", "model/thz-mac-nano.cc:THzMacNano::ReceiveData", "model/thz-mac-nano.cc:THzMacNano::ReceiveAck", "model/thz-phy-nano.cc:THzPhyNano::SendPacket", "model/thz-phy-nano.cc:THzPhyNano::ReceivePacketDone", "model/thz-channel.cc:THzChannel::SendPacket"]}
{"id": "C115", "title": "Packet in an idle network is reported as sent", "statement": "A packet accepted while nothing else goes on in the network of nano nodes is received and its source reports it as sent.", "quantifier": "any number of nodes, all propagation delays and orders of simultaneous events", "why_tests_cant": "Depends on the propagation delay, the slot search of the PHY and the timeout of the MAC layer together.", "anchors": ["model/thz-mac-nano.cc:THzMacNano::SendData", "model/thz-mac-nano.cc:THzMacNano::ReceiveData", "model/thz-mac-nano.cc:THzMacNano::ReceiveAck", "model/thz-phy-nano.cc:THzPhyNano::SendPacket", "model/thz-phy-nano.cc:THzPhyNano::ReceivePacketDone", "model/thz-channel.cc:THzChannel::SendPacket"]}
{"id": "C116", "title": "Cell end to end through PHY and channel", "statement": "In a cell of an access point and clients over their PHYs and the channel, MAC and PHY always agree on whether a transmission goes on, a packet that a client reports as sent was handed up by the access point, what is handed up was accepted by the client it names, and nothing accepted is lost silently.", "quantifier": "any number of clients, all executions, propagation delays, powers, interference and random draws", "why_tests_cant": "Tests of the MAC layers replace PHY and channel by stubs; tests of the whole see few of the delays and collisions.", "anchors": ["model/thz-mac-macro-ap.cc:THzMacMacroAp::ReceiveData", "model/thz-mac-macro-ap.cc:THzMacMacroAp::SendAck", "model/thz-mac-macro-client.cc:THzMacMacroClient::ReceiveAck", "model/thz-mac-macro-client.cc:THzMacMacroClient::SendPacketDone", "model/thz-phy-macro.cc:THzPhyMacro::SendPacket", "model/thz-phy-macro.cc:THzPhyMacro::ReceivePacketDone", "model/thz-channel.cc:THzChannel::SendPacket"]}
{"id": "C117", "title": "Macro nodes end to end through PHY and channel", "statement": "In a network of nodes with THzMacMacro over their PHYs and the channel, MAC and PHY always agree on whether a transmission goes on, a unicast packet reported as sent was handed up at its destination, and what a node hands up was accepted at its source for it, and is handed up once.", "quantifier": "any number of nodes, all executions, propagation delays, powers, interference and random draws", "why_tests_cant": "Tests of the MAC layers replace PHY and channel by stubs; tests of the whole see few of the delays and collisions.", "anchors": ["model/thz-mac-macro.cc:THzMacMacro::ReceiveData", "model/thz-mac-macro.cc:THzMacMacro::ReceiveAck", "model/thz-mac-macro.cc:THzMacMacro::SendPacket", "model/thz-mac-macro.cc:THzMacMacro::SendPacketDone", "model/thz-phy-macro.cc:THzPhyMacro::SendPacket", "model/thz-phy-macro.cc:THzPhyMacro::ReceivePacketDone", "model/thz-channel.cc:THzChannel::SendPacket"]}
{"id": "C118", "title": "Connecting a device", "statement": "In whatever order MAC, PHY, channel and antenna are given to a device, they know one another afterwards, the PHY sends on the channel, and the channel lists the device exactly once; THzHelper::Install does this for all nodes.", "quantifier": "all orders of the setters, any number of devices connected in between", "why_tests_cant": "The examples use one order; the others compile and run silently.", "anchors": ["model/thz-net-device.cc:THzNetDevice::SetMac", "model/thz-net-device.cc:THzNetDevice::SetPhy", "model/thz-net-device.cc:THzNetDevice::SetChannel", "model/thz-net-device.cc:THzNetDevice::SetDirAntenna", "helper/thz-helper.cc:THzHelper::Install"]}
{"id": "C119", "title": "State of the link", "statement": "A device with a PHY reports that its link is up, and without one that it is down.", "quantifier": "all devices and all contents of uninitialised memory", "why_tests_cant": "The result depends on memory that a test cannot control.", "anchors": ["model/thz-net-device.cc:THzNetDevice::IsLinkUp"]}
{"id": "C120", "title": "Trace sources of the device", "statement": "Every packet sent through the device fires the trace source Tx, and every packet handed up fires Rx.", "quantifier": "all packets, sources and destinations", "why_tests_cant": "Tests would have to connect to the trace sources.", "anchors": ["model/thz-net-device.cc:THzNetDevice::Send", "model/thz-net-device.cc:THzNetDevice::SendFrom", "model/thz-net-device.cc:THzNetDevice::ForwardUp", "model/thz-net-device.cc:THzNetDevice::GetTypeId"]}
{"id": "C121", "title": "Numbers of the frequencies in the table", "statement": "FreqSeqStart and FreqSeqEnd are the positions of the first and the last of the m_numsb frequencies in data_frequency.txt from the start frequency on; FreqBands gives these frequencies and writes only within its vector.", "quantifier": "all sorted tables and all numbers of sub-bands", "why_tests_cant": "Tests use one table that is longer than needed, and one initialiser.", "anchors": ["model/thz-spectrum-waveform.cc:THzSpectrumValueFactory::FreqSeqStart", "model/thz-spectrum-waveform.cc:THzSpectrumValueFactory::FreqStartValue", "model/thz-spectrum-waveform.cc:THzSpectrumValueFactory::FreqBands", "model/thz-spectrum-waveform.cc:THzSpectrumValueFactory::FreqSeqEnd"]}
{"id": "C122", "title": "Spectrum over the whole table", "statement": "CreateAllPowerSpectralDensity gives each band the power density of a frequency inside that band.", "quantifier": "all tables, all widths of sub-bands", "why_tests_cant": "Tests see numbers of which only the band they belong to is wrong.", "anchors": ["model/thz-spectrum-waveform.cc:THzSpectrumValueFactory::AllTHzSpectrumWaveformInitializer", "model/thz-spectrum-waveform.cc:THzSpectrumValueFactory::CreateAllPowerSpectralDensity"]}
{"id": "C123", "title": "Results file of a client", "statement": "The results file has, in order, one line for each packet that the client reports as sent or discarded, with the size of its payload, the outcome, and for a packet sent the time from Enqueue to the report in nanoseconds.", "quantifier": "all configurations and executions in real time, any number of packets", "why_tests_cant": "The line is written by an event scheduled at the same instant; a test sees a wrong line only if two results coincide.", "anchors": ["model/thz-mac-macro-client.cc:THzMacMacroClient::SendDataDone", "model/thz-mac-macro-client.cc:THzMacMacroClient::ResultsRecord", "model/thz-mac-macro-client.cc:THzMacMacroClient::Enqueue"]}
{"id": "C124", "title": "Size in the results file", "statement": "The size on a line of the results file is the payload of a UDP datagram that was given to the client.", "quantifier": "all executions, all sizes of payload up to the MTU, IPv4 and IPv6", "why_tests_cant": "The examples use IPv4 only.", "anchors": ["model/thz-mac-macro-client.cc:THzMacMacroClient::SendDataDone", "model/thz-mac-macro-client.cc:THzMacMacroClient::ResultsRecord", "model/thz-net-device.cc:THzNetDevice::Send"]}
{"id": "C125", "title": "Traced throughput of a client", "statement": "Each packet reported as sent fires the trace source Throughput once, and the n-th value is the mean, over the first n packets sent, of payload bits divided by the time from Enqueue to the report.", "quantifier": "all executions, any number of packets, in whatever order they are sent", "why_tests_cant": "The value depends on all earlier packets.", "anchors": ["model/thz-mac-macro-client.cc:THzMacMacroClient::SendDataDone"]}
{"id": "C126", "title": "Traced throughput and time", "statement": "The value last traced is the payload delivered so far divided by the time that has passed.", "quantifier": "all executions in real time", "why_tests_cant": "The two values agree in the runs of one packet that tests use.", "anchors": ["model/thz-mac-macro-client.cc:THzMacMacroClient::SendDataDone"]}
{"id": "C127", "title": "Results file of the macro MAC", "statement": "The results file has, in order, one line for each packet reported as sent or discarded, with the size of its payload, the outcome, and for a packet sent the time from Enqueue to the report in nanoseconds; a result is there whenever a line is written.", "quantifier": "all configurations and executions in real time, any number of packets", "why_tests_cant": "The line is written by an event scheduled at the same instant; a missing result shows only if a timeout and an ACK nearly coincide.", "anchors": ["model/thz-mac-macro.cc:THzMacMacro::SendDataDone", "model/thz-mac-macro.cc:THzMacMacro::ResultsRecord", "model/thz-mac-macro.cc:THzMacMacro::Enqueue"]}
{"id": "C128", "title": "Traced throughput of the macro MAC", "statement": "Each packet reported as sent fires the trace source Throughput once, and the n-th value is the mean, over the first n packets sent, of payload bits divided by the time from Enqueue to the report.", "quantifier": "all executions, any number of packets, unicast and broadcast, in whatever order they are sent", "why_tests_cant": "The value depends on all earlier packets.", "anchors": ["model/thz-mac-macro.cc:THzMacMacro::SendDataDone"]}
{"id": "C129", "title": "Traced throughput of the nano MAC", "statement": "Each packet reported as sent fires the trace source Throughput once, and the n-th value is the mean, over the first n packets sent, of the bits handed to Enqueue divided by the time from Enqueue to the report; that time is never negative.", "quantifier": "all executions, any number of packets, destinations and retries, in whatever order they are acknowledged", "why_tests_cant": "The value depends on all earlier packets.", "anchors": ["model/thz-mac-nano.cc:THzMacNano::SendDataDone", "model/thz-mac-nano.cc:THzMacNano::Enqueue"]}
{"id": "C130", "title": "A packet in an idle macro network is delivered, acknowledged and reported in time", "statement": "If a node of an idle network of THzMacMacro nodes with PHYs and channel is given a packet of at least 15000 bytes for another node in range, without RTS, the packet is sent once, handed up once at its destination, acknowledged and reported as sent, and nothing is reported as discarded; this is over at most DIFS, the longest backoff, SIFS, the two transmission times and twice the propagation delay after the packet came, plus 2 ps.", "quantifier": "all networks with any number of nodes, any earlier execution that left the network idle, all backoff draws, propagation delays, settings of SIFS, DIFS, slot and durations, and all interleavings of the pending events of MACs and channel", "why_tests_cant": "The interleavings of the timers of the nodes with the events of PHY and channel, and the combinations of settings, cannot be enumerated.", "anchors": ["model/thz-mac-macro.cc:THzMacMacro::Enqueue", "model/thz-mac-macro.cc:THzMacMacro::CcaForDifs", "model/thz-mac-macro.cc:THzMacMacro::SendData", "model/thz-mac-macro.cc:THzMacMacro::ReceiveData", "model/thz-mac-macro.cc:THzMacMacro::ReceiveAck", "model/thz-mac-macro.cc:THzMacMacro::AckTimeout", "model/thz-mac-macro.cc:THzMacMacro::SendDataDone", "model/thz-phy-macro.cc:THzPhyMacro::ReceivePacketDone", "model/thz-channel.cc:THzChannel::SendPacket"]}
{"id": "C131", "title": "A packet in an idle macro network with RTS is delivered, acknowledged and reported in time", "statement": "If a node of an idle network of THzMacMacro nodes with PHYs and channel, with RTS enabled, is given a packet of at least 15000 bytes for another node in range, exactly one RTS, one CTS, the packet and one acknowledgement are sent by the two nodes, the packet is handed up once at its destination and reported as sent, and nothing is reported as discarded; this is over at most DIFS, the longest backoff, SIFS, the four transmission times and four times the propagation delay after the packet came, plus 4 ps.", "quantifier": "all networks with any number of nodes, any earlier execution that left the network idle, all backoff draws, propagation delays, uninitialised durations read from an RTS, settings of SIFS, DIFS, slot and durations, and all interleavings of the pending events of MACs and channel", "why_tests_cant": "The interleavings of the timers of the nodes with the events of PHY and channel, the values left in uninitialised memory and the combinations of settings cannot be enumerated.", "anchors": ["model/thz-mac-macro.cc:THzMacMacro::Enqueue", "model/thz-mac-macro.cc:THzMacMacro::CcaForDifs", "model/thz-mac-macro.cc:THzMacMacro::SendRts", "model/thz-mac-macro.cc:THzMacMacro::ReceiveRts", "model/thz-mac-macro.cc:THzMacMacro::SendCts", "model/thz-mac-macro.cc:THzMacMacro::ReceiveCts", "model/thz-mac-macro.cc:THzMacMacro::CtsTimeout", "model/thz-mac-macro.cc:THzMacMacro::SendData", "model/thz-mac-macro.cc:THzMacMacro::ReceiveData", "model/thz-mac-macro.cc:THzMacMacro::ReceiveAck", "model/thz-mac-macro.cc:THzMacMacro::SendDataDone", "model/thz-phy-macro.cc:THzPhyMacro::ReceivePacketDone", "model/thz-channel.cc:THzChannel::SendPacket"]}
{"id": "C132", "title": "The acknowledgement timeout of a client covers the exchange", "statement": "In 1-way mode, with the client's DataRate that of the PHY, the acknowledgement that the access point sends at once for a data packet the client has accepted arrives at the client before the acknowledgement timeout scheduled when the packet was sent, if the access point is within PropDelay.", "quantifier": "all client states, packet sizes Enqueue accepts, rates, settings of PacketSize, PropDelay, SIFS, and propagation delays up to PropDelay", "why_tests_cant": "The timeout is computed once from the smallest packet size; whether it suffices depends on the size of each packet, the rate and the distance together.", "anchors": ["model/thz-mac-macro-client.cc:THzMacMacroClient::InitVariables", "model/thz-mac-macro-client.cc:THzMacMacroClient::Enqueue", "model/thz-mac-macro-client.cc:THzMacMacroClient::SendData", "model/thz-mac-macro-client.cc:THzMacMacroClient::AckTimeout", "model/thz-mac-macro-ap.cc:THzMacMacroAp::ReceiveData", "model/thz-phy-macro.cc:THzPhyMacro::CalTxDuration"]}
{"id": "C133", "title": "The acknowledgement timeout of a granted client covers the whole sector", "statement": "In 3-way mode the acknowledgements that the access point sends one after the other when the data of all granted clients have arrived reach every client before the acknowledgement timeout that it scheduled when it sent its data, if all nodes are within the client's PropDelay and it has counted all the grants of the sector.", "quantifier": "all histories of the access point and of the client, numbers of granted clients, modulations chosen, settings of PropDelay, back-off, SIFS and PacketSize, and propagation delays up to PropDelay", "why_tests_cant": "The client computes the timeout from the number of grants it has counted and the access point spreads the slots by the modulation of each client; whether they fit depends on all clients of the sector together.", "anchors": ["model/thz-mac-macro-client.cc:THzMacMacroClient::SendData", "model/thz-mac-macro-client.cc:THzMacMacroClient::ReceiveCts", "model/thz-mac-macro-client.cc:THzMacMacroClient::AckTimeout", "model/thz-mac-macro-ap.cc:THzMacMacroAp::WaitTimeExpired", "model/thz-mac-macro-ap.cc:THzMacMacroAp::SendCts", "model/thz-mac-macro-ap.cc:THzMacMacroAp::SendAck"]}
{"id": "C134", "title": "A nano node that has answered an RTS waits for the data", "statement": "When a nano node grants the data of an RTS with a CTS, the timeout that gives back the energy booked for the data is due later than the end of the data that the source sends at once, for nodes up to 10 cm apart.", "quantifier": "all histories of the node, RTS frames, data sizes, symbol times and propagation delays with a round trip of up to 666 ps", "why_tests_cant": "The timeout is a constant plus the duration of the CTS; whether it suffices depends on the size of data not yet known, and what follows from it shows only in the energy level over real-time executions.", "anchors": ["model/thz-mac-nano.cc:THzMacNano::ReceiveRts", "model/thz-mac-nano.cc:THzMacNano::ReceiveData", "model/thz-mac-nano.cc:THzMacNano::DataTimeout", "model/thz-mac-nano.cc:THzMacNano::ReceiveCts", "model/thz-phy-nano.cc:THzPhyNano::CalTxDuration"]}
{"id": "C135", "title": "The access point waits until every answer to its announcement can have arrived", "statement": "When the access point turns and announces the new sector, every RTS (3-way) that a client within the assumed range sends in answer has arrived completely before the wait time of the sector expires, and every data packet (1-way) begins to arrive before the data timeout of the turn, whatever slot the client draws.", "quantifier": "all histories of the access point, all states of the client, all drawn slots, all propagation delays within the assumed range, all configurations in which both sides use the same slots, durations and propagation delay", "why_tests_cant": "The deadline is in one class and the answer in another; only the last slot at the longest distance comes within a nanosecond of the deadline, and the fairness delay is computed from the position in absolute coordinates, which is right in every test whose access point is at the origin.", "anchors": ["model/thz-mac-macro-ap.cc:THzMacMacroAp::SendCta3", "model/thz-mac-macro-ap.cc:THzMacMacroAp::SendCta1", "model/thz-mac-macro-ap.cc:THzMacMacroAp::TurnRxAntenna", "model/thz-mac-macro-client.cc:THzMacMacroClient::ReceiveCta3", "model/thz-mac-macro-client.cc:THzMacMacroClient::ReceiveCta1"]}
{"id": "C136", "title": "An antenna points where it was turned", "statement": "Turning a directional antenna to any angle, however many whole turns it includes, ends and gives full gain exactly in that direction and less in every other; the rotating antenna has the same gains again after every whole turn.", "quantifier": "all angles (any real number of degrees), all directions, all turning speeds, initial angles and times", "why_tests_cant": "The angle is reduced by loops in degrees, converted to radians and reduced again by loops with other bounds; a test sees single angles, and an error of one turn in one of the loops shows only for angles beyond 360 degrees.", "anchors": ["model/thz-dir-antenna.cc:THzDirectionalAntenna::TuneRxOrientation", "model/thz-dir-antenna.cc:THzDirectionalAntenna::GetRxOrientation", "model/thz-dir-antenna.cc:THzDirectionalAntenna::GetRxGainDb"]}
{"id": "C137", "title": "Order of arrival in 1-way mode is the order of the drawn slots", "statement": "When two clients in range answer the same announcement with data, the packet of the client that drew the lower slot begins to arrive at the access point first, and packets with the same slot arrive within one slot, whatever the distances of the clients (this is what the fairness delay is for).", "quantifier": "all pairs of clients, all their histories, all distances in range, all drawn slots", "why_tests_cant": "It relates two nodes at different distances through the delay each computes alone; a test with the access point at the origin or with one client sees no violation.", "anchors": ["model/thz-mac-macro-client.cc:THzMacMacroClient::ReceiveCta1"]}
{"id": "C138", "title": "A nano node that has sent an RTS waits for the CTS", "statement": "When a nano node sends an RTS and its destination answers at once, the CTS timeout of the packet has not run when the CTS arrives, for nodes up to 10 cm apart, whatever other frames came and whatever other timeouts ran in between; and the node then sends the packet itself at once, to that destination and with that number, unless it was reported before.", "quantifier": "all histories of the node, all runs in real time between the RTS and the CTS, all symbol times and propagation delays with a round trip below 676 ps", "why_tests_cant": "Any frame or event in between may cancel or erase the wrong timeout (they are found by sequence number among lists of several kinds); a test runs one exchange on an idle channel.", "anchors": ["model/thz-mac-nano.cc:THzMacNano::SendRts", "model/thz-mac-nano.cc:THzMacNano::ReceiveCts", "model/thz-mac-nano.cc:THzMacNano::CtsTimeout", "model/thz-mac-nano.cc:THzMacNano::CheckResources"]}
{"id": "C139", "title": "A nano node that has sent data waits for the acknowledgement", "statement": "When a nano node sends data to one node and the destination acknowledges at once, the acknowledgement timeout has not run when the ACK arrives, for nodes up to 10 cm apart, whatever the size of the data and whatever other frames came and other timeouts ran in between; and if no timeout of an earlier transmission with that number ran meanwhile, the packet is reported as sent at that moment (unless it was reported before).", "quantifier": "all histories of the node, all runs in real time between the data and the ACK, all sizes, symbol times and propagation delays with a round trip below 676 ps", "why_tests_cant": "Timeouts are found by sequence number in lists of several kinds and any event in between may cancel or erase the wrong one; a test runs one exchange on an idle channel.", "anchors": ["model/thz-mac-nano.cc:THzMacNano::SendData", "model/thz-mac-nano.cc:THzMacNano::ReceiveAck", "model/thz-mac-nano.cc:THzMacNano::AckTimeout", "model/thz-mac-nano.cc:THzMacNano::SendDataDone"]}
