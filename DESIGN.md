# Formal model of UN-Lab/thz (ns-3 terahertz module)

## Layout

For each component `X` of the code there are up to four files in `rocq/theories`:

* `XModel.v`  - total, computable Gallina transcription of the C++ functions. Every
  definition cites the file and lines it models and states its simplifications. No proofs.
* `XSpec.v`   - small vocabulary in which the properties are stated, written without the
  model's helper functions.
* `XProofs.v` - invariants and lemmas.
* `XProps.v`  - the theorems named in `MANIFEST.json`, each `exact`-ing a lemma, with
  `Print Assumptions`, and concrete `Example`s showing that hypotheses can be met.

Suffixes: `_refuted` = the property as stated is false of the (faithful) model and the
theorem exhibits a concrete witness; `_partial` = a true part of a property whose full
statement is refuted or not proved (the note says what is missing).

## Modelling conventions

* Machine integers are `Z`/`N` with the wrap written explicitly (`wrap16 x = x mod 2^16`).
* `Time` is an integer number of the simulation's resolution unit (`Z`). ns-3 `Time` is an
  `int64_t`; overflow of the 64-bit tick counter is not modelled.
* `Ptr<Packet>` is a packet record with an explicit identity (`pid`): C++ compares
  packets by pointer, the model by `pid`. Ghost identities are never read by control flow
  except where the C++ compares pointers.
* `double` is modelled in one of three ways, stated per definition: binary64 through Flocq
  (energy model), exact rationals/integers (where only +,-,*,/ and comparisons are used and
  rounding is declared as a simplification), or reals (spectrum formulas with exp, log, pow).
* ns-3's scheduler is modelled by a list of pending events. Safety theorems about MACs are
  proved with *any* pending event allowed to fire next, which over-approximates the real
  time order; witnesses of `_refuted` theorems are runs that respect the real time order,
  or whose feasibility is argued beside the witness.
* Undefined behaviour (iterator past the end, dereference of an empty list, division by
  zero) is an explicit outcome, never a totalised default.
* Random draws are inputs of the model (universally quantified).
* Log statements, trace files and statistics printed to text files are not modelled unless
  a property mentions them.

## Trusted base

* Coq 8.16.1 kernel.
* The axioms printed by `Print Assumptions` after each theorem (listed in the section
  "Assumptions per theorem" below). Only axioms of Coq's standard library occur.
* The reading of the C++ code embodied in the `*Model.v` files. Nothing is extracted or
  compiled; the correspondence is by inspection, with line citations.
* ns-3 itself (packet buffers, scheduler, `Time`, random variables, mobility) is not
  verified; the parts used are modelled as described above.

## Plan per property

| id | modelled | how proved |
|----|----------|------------|
| C01-C05 | `THzMacHeader` Serialize/Deserialize/GetSize/SetDuration as functions on byte lists | case analysis on the frame type; round-trip, prefix-freeness; C02 and C03 refuted in full generality with exact characterisation |
| C06-C08 | `IsNewSequence` as a fold over arrivals | invariant by induction over the history; C08 refuted (16-bit wrap, reordering) with exact characterisation |
| C09-C12 | `THzEnergyModel` over binary64 (Flocq) and over exact rationals | invariant by induction over call lists; C12 refuted with characterisation |
| C13-C18, C21-C27 | `THzMacNano` as a state machine over arbitrary events | inductive invariants over event lists |
| C19-C20 | network of nano MACs with a lossy, duplicating, reordering channel | global invariant |
| C28-C33 | `THzPhyNano` sort, slot search, reception bookkeeping over integer femtoseconds | functional correctness and invariants |
| C34-C35 | `THzChannel` as an event system | invariant |
| C36-C37 | `THzNetDevice` Send/SendFrom/ForwardUp | case analysis |
| C38-C41, C49-C51 | the UDP client, the trace client, the UDP server and the traffic generator, each as a state machine or a loop with fuel | induction; refutations with concrete files and runs |
| C42 | `THzEnergyModel` initialisation and its harvest events | induction over the events |
| C43-C45 | sequence number wrap of the nano MAC, alone (C43) and end to end (C44, C45) | invariants with the unbounded number beside the 16-bit one; refuted beyond the wrap |
| C46-C47 | collision decision and SINR threshold of the nano PHY | invariant; reals for the threshold in dB |
| C48 | disposal of a device | refuted |
| C52-C59 | `THzPhyMacro` as a timed event system (C52-C57), its durations over rationals (C58) | one invariant over all reachable states |
| C60-C71 | `THzMacMacro` as a timed event system; any pending event may fire in the safety theorems, refutations run in real time (`mreal`); C69 for networks of nodes | invariants over all executions (MacAcct: accounting, MacInv: origins, MacResp: responses and filter, MacLive: progress, MacNav: reservations, MacUb: undefined behaviour, antenna) |
| C72-C83 | `THzMacMacroAp` as a timed event system in the same style | invariants over all executions (ApInv: acknowledgements, ApLive: rounds, ApMore: delivery, angles, ApWhite: sector assignment, ApSlots: slots of one sector); runs for the refutations in ApScript |
| C85-C99 | `THzMacMacroClient` as a timed event system in the same style | invariants over all executions (ClientAcct: accounting, ClientInv: origins of reports and frames, ClientFifo and ClientOrder: order, ClientCount: counting, ClientRetry: retries and backoff, ClientMore: undefined behaviour and delays, ClientBlock: states without progress); runs in ClientScript |
| C84, C100 | grants of the access point | balance of RTS and CTS, origin of every grant (ApGrant) |
| C101-C102 | one access point and any number of clients (ApNet); a node receives without error only what another one sent, with loss, delay and repetition | induction over the executions of the network, from the invariants of the parts; runs with one clock in ApNetScript |
| C103-C106 | spectra of the waveform factory and their integration, over rationals | closed forms of the sums; refuted with the default attributes |
| C107-C109 | propagation loss: the tables and the map of coefficients over rationals, the losses over reals | invariant of the map over all histories; closed form of the received power |
| C110-C113 | the antenna over reals; its use by the channel for any list of devices | trigonometry; induction over the runs of nodes that send, turn and change their mode |
| C114-C115 | the nano stack: MAC over PHY over channel, any number of nodes | refinement to the network of C19, C20, C44 (StackProofs); invariant of the phases of one exchange (StackLive) |
| C116-C117 | the macro stack: any MAC network over macro PHYs and channel (MStackModel), instantiated with access point and clients (C116) and with `THzMacMacro` (C117) | a generic refinement to the network of the MAC layers (MStackProofs), its hypotheses proved for both instances (MStackAp, MStackMac) |
| C118-C120 | connecting devices: a heap of devices, MACs, PHYs, channels and antennas with the setters as operations (WireModel); link state and trace sources of the device | invariant over all sequences of setters (WireProofs); refuted for one order |
| C121-C122 | reading of the table of frequencies, spectrum over the whole table, over rationals (FreqModel) | induction over the table |
| C123-C126 | results file and traced throughput of a client: an observer of the outputs of ClientModel with their times (StatModel) | invariant linking the pending write events to the reports (StatClient); generic facts about the observer (StatProofs) |
| C127-C128 | the same observer for the outputs of MacModel | invariant on the pending write events (StatMac), over the cases of MacSteps and the identifiers of MacLive |
| C129 | observer of the outputs of NanoModel (NanoStat) | invariant on the observer; reports come after acceptance (NanoProofs), the clock does not run backwards |
| C130 | one packet in an idle network of the macro stack of C117, without RTS | the MAC steps of one exchange (MacExch); invariant of its ten phases over MACs, PHYs and channel (MStackLive) |
| C131 | the same with RTS, CTS and uninitialised durations | the MAC steps up to the CTS (MacRts); invariant of the nine phases before the packet is sent (MStackRts), then that of C130 |
| C132 | SendData and InitVariables of the client with the air times of the PHY (AckTime) | the scheduled timeout against the time of the exchange, arithmetic over the rate; a run of the cell of C116 |
| C133 | the grants of WaitTimeExpired with SendData of the client (AckTime3) | sum of the announced slots (as C77, C78) against the timeout of the client, for any number of clients |
| C134 | ReceiveRts, ReceiveData and DataTimeout of the nano MAC (NanoWait) | due time of the timeout; pending timeouts stay until they run or the data come (invariant over the ids of events), over runs in real time |
| C135 | SendCta3/SendCta1 of the AP against ReceiveCta3/ReceiveCta1 of the client (ApWait) | the timers that a turn schedules (case analysis of the AP's steps), the timers that a CTA makes a client schedule (case analysis of the client's), arithmetic |
| C136 | TuneRxOrientation, GetRxOrientation and GetRxGainDb of the antenna (AntennaTurn) | the loops as relations: they end, are functional, add whole turns (induction); periodicity and strict monotony of the pattern (AntennaProofs) |
| C137 | ReceiveCta1 of two clients (Fair) | the timers that a CTA makes a client schedule (ApWait), arithmetic |
| C138 | SendRts, ReceiveCts and CtsTimeout of the nano MAC (NanoCts) | every RTS is sent together with its timeout; pending CTS timeouts stay until they run or the CTS comes, over runs in real time |
| C139 | SendData, ReceiveAck and AckTimeout of the nano MAC (NanoAck) | as C138 for the acknowledgement; the record of the timeout stays with it |

## What is modelled

| file in /repo/model | modelled in | not modelled |
|---------------------|-------------|--------------|
| thz-mac-header.cc | HeaderModel | Print |
| thz-energy-model.cc | EnergyModel (exact), EnergyFModel (binary64) | attributes, trace sources |
| thz-mac-nano.cc | NanoModel (IsNewSequence in SeqModel), NanoStat (traced throughput) | log output; the event times (any pending event may fire) |
| several nano nodes | NetModel | propagation times (the channel may lose, duplicate, reorder) |
| MAC, PHY and channel of several nano nodes | StackModel | received powers (inputs); attaching and disposing of devices during a run |
| MAC, PHY and channel of several macro nodes | MStackModel, MStackAp, MStackMac, MacExch, MStackLive, MacRts, MStackRts | as for the nano nodes |
| thz-phy-nano.cc | PhyModel | spectrum arithmetic that yields the received power (an input) |
| thz-channel.cc | ChannelModel | antenna and propagation loss (the received power is an input; see AntennaModel and LossModel) |
| thz-net-device.cc | DeviceModel; the setters, IsLinkUp and the trace sources in WireModel | attributes |
| helper/thz-helper.cc | WireModel | address allocation; the other helpers |
| thz-udp-client.cc, thz-udp-trace-client.cc, thz-udp-server.cc, traffic-generator.cc | AppModel | sockets (an oracle that accepts or refuses) |
| thz-phy-macro.cc | MacroPhyModel | computation of the SINR from the spectrum (arbitrary predicates `sense`, `good`) |
| thz-mac-macro.cc | MacModel; several nodes in MacNet; results file and throughput in StatModel | angles of the antenna (only its mode and the pending turn); the durations of frames (arbitrary functions of type and size); the random draws and IsIdle of the PHY (arbitrary inputs) |
| thz-mac-macro-ap.cc | ApModel | gain and orientation of the antenna beyond the angle of the sector (whole degrees); received powers are integers (mdBm); CycleRecord has an empty body (926-945, commented out); the durations of frames (arbitrary functions of type, size and MCS) |
| one access point and its clients | ApNet | propagation times and which sectors hear a frame (any frame sent may or may not arrive) |
| thz-mac-macro-client.cc | ClientModel; results file and throughput in StatModel | angle of the antenna; the distance to the access point and the durations of frames (configuration); the random draws (arbitrary inputs) |
| thz-spectrum-waveform.cc | WaveModel, FreqModel | CreateConstant; the shape of the pulse is any positive function; rounding |
| thz-spectrum-propagation-loss.cc | LossModel | LoadedAbsCoe; rounding; failure to open a file |
| thz-dir-antenna.cc, thz-channel.cc (gains) | AntennaModel, AntennaTurn | GetTxGainDb, the recorded angles (m_TxorientationDegrees, m_phi_tx); positions (an arbitrary function for azimuths); rounding |

## Findings

Violations of the stated properties found in the code. Each has a `_refuted` theorem whose
witness is a run or an input of the model.

* The header of an RTS does not carry the duration (C02, C03, C05).
* A 16-bit sequence number wraps: a new frame is taken for a duplicate (C08), an old
  acknowledgement for that of a new packet (C43), and a packet acknowledged but not delivered
  is reported as sent (C45).
* Rounding makes the stored energy drift from what was harvested and spent (C11). The MAC is
  told about sufficient energy by an equality test that can be jumped over (C12).
* Two chains of harvest events are started, so energy is harvested at twice the rate (C42).
* A broadcast packet never leaves the queue of the nano MAC and blocks it (C22). Packets can
  wait forever behind another destination (C21).
* A packet can be sent again after it was reported (C23), sent although its booking was
  refunded (C24), and refunds can exceed the bookings (C27).
* The backoff window is undefined behaviour from the 32nd retry on (C17).
* The slot search of the nano PHY reads outside its array for times beyond 2^53 fs (C29),
  accepts overlapping slots across the wrap (C30) and refuses although a slot is free (C31).
  A reception is dropped for a transmission in the future (C32). The interference decision uses
  an uninitialised value (C46). SinrTh is compared with a linear ratio (C47).
* The ACK timeout of the nano MAC leaves 676 ps for the way of the packet and that of the ACK: more
  than about 10 cm apart every packet is sent until the retry limit and reported as failed, though
  it was handed up (C115).
* Disposing of one device clears the channel used by the others (C48).
* The UDP client sends the sequence number 0 only (C38) and falls silent after a refused
  datagram (C49). The trace client duplicates the last line (C50), sends wrong amounts (C39)
  and uses an empty trace after SetRemote (C40). The server counts IPv6 datagrams after it was
  stopped (C51).
* Traffic generator: the index of a node is mistaken for its identifier (C41).
* Macro PHY: a signal that begins during an own transmission is not sensed afterwards (C52); a
  packet is reported twice (C53) or not at all (C59); interference that ends early is ignored (C54); a packet
  received during an own transmission can be reported as correct (C55); control packets are
  not sent at the basic rate (C58). The list of ongoing receptions is never cleaned up.
* Macro MAC: Enqueue always returns false and truncates the size to 16 bits (C60); QueueLimit
  (C61) and the retry limits (C63) are not used; with two queued packets the node can stop for
  ever (C64); a pending access grant ignores a reservation (C65); numbers wrap, and the counter
  starts at an uninitialised value (C69); the completion of the last recorded packet is
  undefined behaviour (C70); after its first packet a node never receives with a turning
  antenna again (C71). RTS frames carry no duration, so reservations by RTS are arbitrary.
* Macro access point: a sector timeout during a reception loses an ACK (C73), after which the
  access point never turns again (C74). Data that ends after its sector starts a second round
  (C75), which can take the front of an empty list (C83). While the state is RX the access point
  turns but sends nothing; the PHY need not report the end of the reception (C76). Slots overlap
  for nodes at different distances, and if the waiting time exceeds 16 bits (C77); the sector
  timeout assumes the default rate (C78). The weakest signals get a fast rate (C79). The
  sectors drift if the beamwidth does not divide 360 (C81). Data for other nodes is handed up
  (C82). A reception in progress when a CTS is due suppresses it (C100). Numbers wrap (C101).
  With UseWhiteList a late answer to a CTA with flags 1 carries a number that was never set; its CTS may release a later packet
  first, and the earlier one is then acknowledged and dropped (C101).
* Macro client: Enqueue always returns false, QueueLimit is not used (C85); one counter serves
  both retry limits (C88); an RTS that could not be sent counts as unanswered (C89); the
  announcement that discards a packet also starts an RTS for it (C91); feedback to another
  node is taken for an announcement (C92); broadcast packets are never sent and block the queue
  in 1-way mode (C94); a CTS that comes after the next announcement leaves a backoff that
  never ends (C95); the backoff is 0 for the draw 65536 (C96); delays are negative in 1-way mode
  beyond PropDelay and in 3-way mode if the first grants of a sector were not heard (C97); the
  completion of the last recorded packet is undefined behaviour (C98); an unsolicited CTS
  reorders the packets (C99).
* Spectra: with the default attributes all sample bands of the macro spectrum are empty (C103), so
  that every sample has the same loss, and 1 percent of the power is missing (C104). The mask
  scales with the number of sub-bands (C105). A pulse has more than the transmit power (C106).
* Macro MAC: the timeout of the acknowledgement assumes 33356 ps of propagation each way (10 m), so beyond about
  10.7 m each packet is delivered, sent five times and reported as discarded (C130).
* With RTS, a lost CTS leaves the destination with a NAV of whatever duration it read from uninitialised memory; until it has
  passed no RTS is answered, and packets are reported as discarded though the channel is idle (C131).
* Client: the acknowledgement timeout is that of the smallest packet accepted, so larger packets are delivered, sent five
  times and reported as discarded (C132).
* Client: in 3-way mode the acknowledgement timeout assumes DataRate for every client, so with adaptive modulation a client that is
  told to use BPSK or QPSK gives up before its data have been sent (C133). The default PropDelay of the client (3.333 ns) is a tenth of the
  access point's (33.356 ns).
* Nano MAC: the timeout for the data after a CTS leaves 676 ps and not the duration of the data, so with RTS/CTS it always runs
  while the data are on the air and gives back energy that is then spent (C134).
* 1-way: the client's fairness delay uses the distance to the origin of the coordinates, not to the access point. With an access
  point elsewhere the data of a node in range come after the data timeout (C135), and a node that drew a lower slot is not first (C137).
* Loss: at distance 0 the value depends on earlier calls (C107) and the power is infinite (C109); a
  neighbour of the nearest tabulated frequency is used (C108).
* Antenna: the attribute BeamWidth has no effect on the pattern by itself (C110); a receiver that sends
  turns the antennas of the other receivers (C111); omnidirectional nodes are treated like directional
  receivers (C112), and their MaxGain is ignored (C113).
* Device: if the channel is set before the PHY, the device is never attached (C118). IsLinkUp reads an
  uninitialised member (C119). The trace source Tx is never fired (C120).
* Table of frequencies: FreqSeqEnd is one too small if the table has just enough entries; FreqBands writes
  beyond its vector after the initialiser for pulses (C121). The bands of the spectrum over the whole table do
  not belong to its frequencies (C122).
* Statistics: results that coincide are written as one line twice (C123); sizes assume IPv4 (C124); the
  traced throughput is a mean of rates per packet, not a throughput (C126). In the macro MAC an ACK less than
  1 ps before a timeout makes ResultsRecord use an empty list (C127). The nano MAC counts MAC headers as throughput (C129), the
  others do not.

## Assumptions per theorem

As printed by `Print Assumptions` (generated from the compiled files).

* No axioms ("Closed under the global context"): `C01_header_roundtrip`, `C02_size_illegal_types`, `C02_size_partial`, `C02_size_refuted`, `C03_duration_partial`, `C03_duration_refuted`, `C04_wire_unambiguous`, `C05_uncarried_fields_kept`, `C06_at_most_once`, `C06_decision_characterised`, `C07_other_sources_irrelevant`, `C07_sources_independent`, `C08_at_most_65536_ever`, `C08_dead_after_65535`, `C08_fresh_delivered_partial`, `C08_fresh_delivered_refuted`, `C08_reordered_refuted`, `C100_answered_partial`, `C100_answered_refuted`, `C101_delivered_partial`, `C101_delivered_refuted`, `C101_white_refuted`, `C102_genuine`, `C103_bands_partial`, `C103_bands_refuted`, `C103_pulse`, `C104_power_partial`, `C104_power_refuted`, `C105_mask_partial`, `C105_mask_refuted`, `C106_pulse_partial`, `C106_pulse_refuted`, `C10_book_all_or_nothing`, `C114_stack`, `C115_first_attempt_partial`, `C115_first_attempt_refuted`, `C116_cell_partial`, `C116_cell_refuted`, `C117_macs_partial`, `C117_macs_refuted`, `C118_install`, `C118_wiring_partial`, `C118_wiring_refuted`, `C119_link_partial`, `C119_link_refuted`, `C11_conservation`, `C11_return_restores`, `C120_traces_partial`, `C120_traces_refuted`, `C121_bounds_refuted`, `C121_numbers_partial`, `C121_numbers_refuted`, `C122_all_partial`, `C122_all_refuted`, `C123_reports`, `C123_results_partial`, `C123_results_refuted`, `C124_payload_partial`, `C124_payload_refuted`, `C125_traced`, `C126_over_refuted`, `C126_under_partial`, `C126_under_refuted`, `C127_reports`, `C127_results_partial`, `C127_results_refuted`, `C128_sent`, `C128_traced`, `C129_sent`, `C129_traced_partial`, `C129_traced_refuted`, `C12_callback_on_equality_partial`, `C12_threshold_callback_refuted`, `C12_undisturbed_partial`, `C130_exchange_partial`, `C130_exchange_refuted`, `C131_rts_partial`, `C131_rts_refuted`, `C132_acktime_partial`, `C132_acktime_refuted`, `C132_always_late`, `C133_acktime_partial`, `C133_acktime_refuted`, `C133_history_partial`, `C134_returned`, `C134_wait_partial`, `C134_wait_refuted`, `C135_data_wait_partial`, `C135_data_wait_refuted`, `C135_rts_wait`, `C137_fair_partial`, `C137_fair_refuted`, `C138_wait`, `C139_wait`, `C13_queue_limit`, `C14_enqueue_result_partial`, `C14_enqueue_result_refuted`, `C15_accounting`, `C16_retry_limit`, `C17_backoff_window`, `C17_large_limit_refuted`, `C18_in_order`, `C19_success_delivered_once`, `C20_at_most_once`, `C20_genuine`, `C21_bounded_partial`, `C21_progress_partial`, `C21_progress_refuted`, `C22_blocked_refuted`, `C22_broadcast_never_leaves_refuted`, `C23_late_transmission_partial`, `C23_late_transmission_refuted`, `C24_data_paid_partial`, `C24_data_paid_refuted`, `C25_ack_policy`, `C26_corrupted_frames`, `C26_other_frames`, `C27_ack_refund_refuted`, `C27_energy_bound_partial`, `C27_energy_created_refuted`, `C28_sort_array`, `C29_slot_search_partial`, `C29_slot_search_refuted`, `C30_no_overlap_between_pulses_partial`, `C30_no_overlap_partial`, `C30_no_overlap_refuted`, `C31_refusal_partial`, `C31_refusal_refuted`, `C32_half_duplex_partial`, `C32_half_duplex_refuted`, `C33_report`, `C33_reported_once`, `C33_transmissions`, `C34_announced_once`, `C34_logged`, `C34_safe`, `C35_noise_exact`, `C36_round_trip_partial`, `C36_round_trip_refuted`, `C37_filter`, `C38_numbers_partial`, `C38_numbers_refuted`, `C39_frame_partial`, `C39_frame_refuted`, `C40_endless_refuted`, `C40_start_partial`, `C40_start_refuted`, `C41_other_node_partial`, `C41_other_node_refuted`, `C41_single_node_refuted`, `C42_chains_partial`, `C42_harvest_rate_refuted`, `C42_single_chain_partial`, `C43_success_means_acked_partial`, `C43_success_means_acked_refuted`, `C44_delivery_order`, `C45_success_delivered_any_length_partial`, `C45_success_delivered_any_length_refuted`, `C46_collision_partial`, `C46_collision_refuted`, `C48_dispose_partial`, `C48_dispose_refuted`, `C49_goes_on_partial`, `C49_goes_on_refuted`, `C49_stopped`, `C50_file_partial`, `C50_file_refuted`, `C51_counts`, `C51_stopped_server_partial`, `C51_stopped_server_refuted`, `C52_carrier_sense_partial`, `C52_carrier_sense_refuted`, `C53_once_partial`, `C53_once_refuted`, `C54_decodable_partial`, `C54_decodable_refuted`, `C55_half_duplex_partial`, `C55_half_duplex_refuted`, `C56_one_transmission`, `C57_idle_again`, `C58_air_time_partial`, `C58_basic_rate_refuted`, `C58_get_basic_rate_refuted`, `C59_reported_partial`, `C59_reported_refuted`, `C60_enqueue_partial`, `C60_return_refuted`, `C60_size_refuted`, `C61_full_refuted`, `C61_limit_refuted`, `C61_order_partial`, `C62_accounting`, `C63_five_partial`, `C63_limits_refuted`, `C64_progress_partial`, `C64_progress_refuted`, `C65_nav_partial`, `C65_nav_refuted`, `C66_responses`, `C67_delivery`, `C68_success`, `C69_delivered_partial`, `C69_delivered_refuted`, `C70_defined_partial`, `C70_defined_refuted`, `C71_antenna_partial`, `C71_antenna_refuted`, `C71_deaf_forever`, `C72_acks`, `C73_acknowledged_partial`, `C73_acknowledged_refuted`, `C74_progress_partial`, `C74_progress_refuted`, `C75_single_partial`, `C75_single_refuted`, `C76_announced_partial`, `C76_announced_refuted`, `C76_mute`, `C77_slots_partial`, `C77_slots_refuted`, `C77_wrap_refuted`, `C78_timeout_partial`, `C78_timeout_refuted`, `C79_rate_partial`, `C79_rate_refuted`, `C80_sectors`, `C81_cycle_partial`, `C81_cycle_refuted`, `C82_delivery_partial`, `C82_delivery_refuted`, `C83_defined_partial`, `C83_defined_refuted`, `C84_grants`, `C85_enqueue_partial`, `C85_enqueue_refuted`, `C85_limit_refuted`, `C86_accounting`, `C87_success`, `C88_limits_partial`, `C88_limits_refuted`, `C89_timeouts_partial`, `C89_timeouts_refuted`, `C90_rts`, `C91_ghost_partial`, `C91_ghost_refuted`, `C92_feedback_partial`, `C92_feedback_refuted`, `C93_granted`, `C93_once`, `C94_broadcast`, `C95_backoff_partial`, `C95_backoff_refuted`, `C95_stuck`, `C96_life_partial`, `C96_life_refuted`, `C97_missed_refuted`, `C97_negative_partial`, `C97_negative_refuted`, `C97_three_partial`, `C98_defined_partial`, `C98_defined_refuted`, `C99_fifo_partial`, `C99_fifo_refuted`

* Axioms `ClassicalDedekindReals.sig_forall_dec`, `ClassicalDedekindReals.sig_not_dec`, `Classical_Prop.classic`, `FunctionalExtensionality.functional_extensionality_dep`: `C09_energy_not_nan`, `C09_energy_not_negative`, `C108_nearest_refuted`, `C109_power_partial`, `C109_power_refuted`, `C10_book_all_or_nothing_binary64`, `C110_beamwidth_partial`, `C110_beamwidth_refuted`, `C111_turned_partial`, `C111_turned_refuted`, `C112_pair_partial`, `C112_pair_refuted`, `C113_own_partial`, `C113_own_refuted`, `C136_points`, `C136_rotation`, `C47_sinr_threshold_partial`, `C47_sinr_threshold_refuted`

* Axioms `ClassicalDedekindReals.sig_forall_dec`, `ClassicalDedekindReals.sig_not_dec`, `FunctionalExtensionality.functional_extensionality_dep`: `C107_history_partial`, `C107_history_refuted`, `C108_nearest_partial`, `C110_loops`, `C136_turning_ends`
