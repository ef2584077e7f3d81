{
 "claims": [
  {
   "property": "C01",
   "status": "proved",
   "theorems": [
    "C01_header_roundtrip"
   ],
   "note": ""
  },
  {
   "property": "C02",
   "status": "partial",
   "theorems": [
    "C02_size_refuted",
    "C02_size_partial",
    "C02_size_illegal_types"
   ],
   "note": "False as stated: GetSerializedSize disagrees with Serialize for some frame types; the exact set of types for which it agrees is proved."
  },
  {
   "property": "C03",
   "status": "partial",
   "theorems": [
    "C03_duration_refuted",
    "C03_duration_partial"
   ],
   "note": "False as stated: the 16-bit duration field truncates/wraps; proved for durations that fit."
  },
  {
   "property": "C04",
   "status": "proved",
   "theorems": [
    "C04_wire_unambiguous"
   ],
   "note": ""
  },
  {
   "property": "C05",
   "status": "proved",
   "theorems": [
    "C05_uncarried_fields_kept"
   ],
   "note": ""
  },
  {
   "property": "C06",
   "status": "proved",
   "theorems": [
    "C06_at_most_once",
    "C06_decision_characterised"
   ],
   "note": ""
  },
  {
   "property": "C07",
   "status": "proved",
   "theorems": [
    "C07_sources_independent",
    "C07_other_sources_irrelevant"
   ],
   "note": ""
  },
  {
   "property": "C08",
   "status": "partial",
   "theorems": [
    "C08_fresh_delivered_refuted",
    "C08_reordered_refuted",
    "C08_at_most_65536_ever",
    "C08_dead_after_65535",
    "C08_fresh_delivered_partial"
   ],
   "note": "False as stated (16-bit wrap, reordering); proved for in-order arrivals before the wrap, and the exact failure is characterised."
  },
  {
   "property": "C09",
   "status": "proved",
   "theorems": [
    "C09_energy_not_negative",
    "C09_energy_not_nan"
   ],
   "note": "Binary64 arithmetic via Flocq. Non-negativity for all non-negative inputs; absence of NaN for finite inputs up to 2^200."
  },
  {
   "property": "C10",
   "status": "proved",
   "theorems": [
    "C10_book_all_or_nothing",
    "C10_book_all_or_nothing_binary64"
   ],
   "note": ""
  },
  {
   "property": "C100",
   "status": "partial",
   "theorems": [
    "C100_answered_refuted",
    "C100_answered_partial"
   ],
   "note": "False if a reception is in progress when the CTS is due: it is not sent and not repeated. Proved if no CTS event finds the AP receiving or transmitting."
  },
  {
   "property": "C101",
   "status": "partial",
   "theorems": [
    "C101_delivered_refuted",
    "C101_white_refuted",
    "C101_delivered_partial"
   ],
   "note": "False when a counter wraps: the packet after number 65535 is acknowledged and dropped as a repetition. With UseWhiteList also false without a wrap: a late answer to a CTA with flags 1 has a number that is not initialised, the CTS for it lets the client send a later packet first, and the earlier one is then acknowledged and dropped. Proved as long as no counter wraps, without UseWhiteList or if no such number is that of a packet of the client."
  },
  {
   "property": "C102",
   "status": "proved",
   "theorems": [
    "C102_genuine"
   ],
   "note": ""
  },
  {
   "property": "C103",
   "status": "partial",
   "theorems": [
    "C103_bands_refuted",
    "C103_bands_partial",
    "C103_pulse"
   ],
   "note": "False with the default attributes: 97 sub-bands divided by 100 samples is 0 in int, and all sample bands are the same empty band. Proved if the number of samples divides that of the sub-bands; the bands always adjoin. The bands of a pulse are as stated (C103_pulse)."
  },
  {
   "property": "C104",
   "status": "partial",
   "theorems": [
    "C104_power_refuted",
    "C104_power_partial"
   ],
   "note": "False with the default attributes (1 percent too small), since the number of sub-bands is truncated. Proved if SubBandWidth divides TotalBandWidth; in general less than one sub-band is missing."
  },
  {
   "property": "C105",
   "status": "partial",
   "theorems": [
    "C105_mask_refuted",
    "C105_mask_partial"
   ],
   "note": "True exactly for 96 to 119 sub-bands. Bounds and absence of double writes are proved for all numbers."
  },
  {
   "property": "C106",
   "status": "partial",
   "theorems": [
    "C106_pulse_refuted",
    "C106_pulse_partial"
   ],
   "note": "False with the default attributes (0.2 percent too much): the division of integers in CalculateEnergyConstant truncates, that of doubles in CalcRxPowerDA does not. True exactly if the number of samples divides that of the sub-bands; at most twice the power in general."
  },
  {
   "property": "C107",
   "status": "partial",
   "theorems": [
    "C107_history_refuted",
    "C107_history_partial"
   ],
   "note": "False at distance 0: the first call for a frequency returns 0, a later one 1. Proved for positive distances."
  },
  {
   "property": "C108",
   "status": "partial",
   "theorems": [
    "C108_nearest_refuted",
    "C108_nearest_partial"
   ],
   "note": "False: the window is wider than the distance of the tabulated frequencies, and the first entry within it is taken. Proved: it is the first entry within the window, which is the nearest one if entries are more than two windows apart."
  },
  {
   "property": "C109",
   "status": "partial",
   "theorems": [
    "C109_power_refuted",
    "C109_power_partial"
   ],
   "note": "False at distance 0, where the received power is infinite, and below c / (4 pi f), where it exceeds the transmitted power. Formula and monotonicity are proved for all positive distances, the bound from c / (4 pi f) on."
  },
  {
   "property": "C11",
   "status": "proved",
   "theorems": [
    "C11_conservation",
    "C11_return_restores"
   ],
   "note": "Exact arithmetic, as the property says; an Example shows the drift in binary64."
  },
  {
   "property": "C110",
   "status": "partial",
   "theorems": [
    "C110_beamwidth_refuted",
    "C110_beamwidth_partial",
    "C110_loops"
   ],
   "note": "False if the attribute BeamWidth is set after SetBeamwidth, since it does not change the exponent. Proved if the attribute is not changed afterwards."
  },
  {
   "property": "C111",
   "status": "partial",
   "theorems": [
    "C111_turned_refuted",
    "C111_turned_partial"
   ],
   "note": "False if a receiving node sends while another one receives: GetAntennaGain overwrites the orientation of the other one. Proved if a receiving node sends only while no other one receives (one access point)."
  },
  {
   "property": "C112",
   "status": "partial",
   "theorems": [
    "C112_pair_refuted",
    "C112_pair_partial"
   ],
   "note": "False for mode 2 (omnidirectional): the modes are converted to bool, and the orientation left over from the last pair is used. Proved for modes 0 and 1."
  },
  {
   "property": "C113",
   "status": "partial",
   "theorems": [
    "C113_own_refuted",
    "C113_own_partial"
   ],
   "note": "False for omnidirectional nodes, whose MaxGain of 40 dB is ignored, and for different antennas, since exponent and MaxGain of the receiving device are used for both. Proved for antennas of the same kind, with the same gain in both directions."
  },
  {
   "property": "C114",
   "status": "proved",
   "theorems": [
    "C114_stack"
   ],
   "note": "The stack of MAC, PHY and channel refines the network model of C19, C20 and C44."
  },
  {
   "property": "C115",
   "status": "partial",
   "theorems": [
    "C115_first_attempt_refuted",
    "C115_first_attempt_partial"
   ],
   "note": "False beyond 10 cm: the ACK timeout leaves 676 ps for both ways. At 30 cm the packet is sent five times, handed up, and reported as failed. Proved for shorter delays, without RTS/CTS: sent once, handed up and reported."
  },
  {
   "property": "C116",
   "status": "partial",
   "theorems": [
    "C116_cell_refuted",
    "C116_cell_partial"
   ],
   "note": "The statement on success is false when the 16-bit number wraps, also in real time. Proved as long as no counter wraps, without UseWhiteList or if no answer to a CTA with flags 1 has the number of a packet of its client; agreement of MAC and PHY and absence of undefined behaviour in PHY and channel without any condition."
  },
  {
   "property": "C117",
   "status": "partial",
   "theorems": [
    "C117_macs_refuted",
    "C117_macs_partial"
   ],
   "note": "The statement on success is false when the 16-bit number wraps, also in real time. Proved: the packet was received at its destination, and if it was not handed up, one with a larger number was; agreement of MAC and PHY and origin of what is handed up without such a condition."
  },
  {
   "property": "C118",
   "status": "partial",
   "theorems": [
    "C118_wiring_refuted",
    "C118_wiring_partial",
    "C118_install"
   ],
   "note": "False if the channel is set before the PHY: the device is never attached, silently. Proved: this is the only such order; THzHelper::Install connects all devices."
  },
  {
   "property": "C119",
   "status": "partial",
   "theorems": [
    "C119_link_refuted",
    "C119_link_partial"
   ],
   "note": "False: m_linkup is never set. Proved: down without PHY; with PHY the result is what the memory contained."
  },
  {
   "property": "C12",
   "status": "partial",
   "theorems": [
    "C12_threshold_callback_refuted",
    "C12_callback_on_equality_partial",
    "C12_undisturbed_partial"
   ],
   "note": "False as stated: the code tests equality, so the threshold can be stepped over. Proved: exact condition under which the callback runs."
  },
  {
   "property": "C120",
   "status": "partial",
   "theorems": [
    "C120_traces_refuted",
    "C120_traces_partial"
   ],
   "note": "False: Tx is never fired. Proved for Rx: exactly once for each packet handed up."
  },
  {
   "property": "C121",
   "status": "partial",
   "theorems": [
    "C121_numbers_refuted",
    "C121_numbers_partial",
    "C121_bounds_refuted"
   ],
   "note": "False: FreqSeqEnd is one too small if the table has just as many frequencies, and after THzPulseSpectrumWaveformInitializer FreqBands writes beyond its vector. Proved: everything else."
  },
  {
   "property": "C122",
   "status": "partial",
   "theorems": [
    "C122_all_refuted",
    "C122_all_partial"
   ],
   "note": "False: the bands begin at 89.9378 GHz, the table at 0 Hz. Proved: which frequency each band gets, and when it belongs to it."
  },
  {
   "property": "C123",
   "status": "partial",
   "theorems": [
    "C123_results_refuted",
    "C123_results_partial",
    "C123_reports"
   ],
   "note": "False if SendDataDone runs twice at one instant: m_result holds one result, so the line of the second packet is written twice and the first is lost. Proved: whenever these instants differ, the file is as stated; the reports are those of the model of the client."
  },
  {
   "property": "C124",
   "status": "partial",
   "theorems": [
    "C124_payload_refuted",
    "C124_payload_partial"
   ],
   "note": "False for IPv6: always 53 bytes are taken off, so the size is 20 too large. Proved for UDP over IPv4, all executions."
  },
  {
   "property": "C125",
   "status": "proved",
   "theorems": [
    "C125_traced"
   ],
   "note": "Exact rational numbers instead of double; a delay of 0 counts as rate 0."
  },
  {
   "property": "C126",
   "status": "partial",
   "theorems": [
    "C126_over_refuted",
    "C126_under_refuted",
    "C126_under_partial"
   ],
   "note": "False in both directions: the value is a mean of rates, too large for a source that is idle, too small for one with a queue. Proved: times the number of packets it is at least the payload delivered by the time passed."
  },
  {
   "property": "C127",
   "status": "partial",
   "theorems": [
    "C127_results_refuted",
    "C127_results_partial",
    "C127_reports"
   ],
   "note": "False if a timeout takes the packet off the queue between the ACK and SendDataDone (1 ps later): ResultsRecord is scheduled but the list of results is empty, and the packet is then reported as discarded. Proved: whenever reports come at different instants and SendDataDone does not find the queue empty, the file is as stated; the reports are those of the model of the MAC."
  },
  {
   "property": "C128",
   "status": "proved",
   "theorems": [
    "C128_traced",
    "C128_sent"
   ],
   "note": "Exact rational numbers instead of double; a delay of 0 counts as rate 0."
  },
  {
   "property": "C129",
   "status": "partial",
   "theorems": [
    "C129_traced_refuted",
    "C129_traced_partial",
    "C129_sent"
   ],
   "note": "False: the 17 bytes of the MAC header count as well. Proved: with the header counted, the statement holds in all executions. Exact rational numbers instead of double; a delay of 0 counts as rate 0."
  },
  {
   "property": "C13",
   "status": "proved",
   "theorems": [
    "C13_queue_limit"
   ],
   "note": ""
  },
  {
   "property": "C130",
   "status": "partial",
   "theorems": [
    "C130_exchange_partial",
    "C130_exchange_refuted"
   ],
   "note": "False beyond about 10.7 m: the timeout of the acknowledgement assumes a propagation delay of 33356 ps each way plus one slot, so the packet is handed up, sent five times and reported as discarded. Proved whenever twice the largest delay is below 66712 ps plus a slot."
  },
  {
   "property": "C131",
   "status": "partial",
   "theorems": [
    "C131_rts_partial",
    "C131_rts_refuted"
   ],
   "note": "False: an RTS whose exchange was not completed leaves at its destination a NAV of the uninitialised duration read from it; until it has passed the destination answers no RTS on the idle channel, and packets are sent five RTS each and reported as discarded. Proved, with any uninitialised durations, if no NAV is set at the destination when the packet comes, CTS and acknowledgement come back within their timeouts, and SIFS, acknowledgement and twice the delay take less than 810 ns."
  },
  {
   "property": "C132",
   "status": "partial",
   "theorems": [
    "C132_acktime_partial",
    "C132_always_late",
    "C132_acktime_refuted"
   ],
   "note": "False for larger packets: m_tData is the time of the smallest packet Enqueue accepts (plus 53 bytes), so at 10 m a packet of 15200 bytes is handed up, acknowledged five times, each time too late, and reported as discarded. Proved for packets of up to 31 bytes more than PacketSize; and packets whose excess takes longer than 2 PropDelay + SIFS + 1 ns never get an ACK in time. Whole bits per second; times exact up to the conversion to femtoseconds."
  },
  {
   "property": "C133",
   "status": "partial",
   "theorems": [
    "C133_acktime_partial",
    "C133_history_partial",
    "C133_acktime_refuted"
   ],
   "note": "C133_full is refuted with a client that is told to use BPSK (2287 ns of data against a timeout of 814 ns plus margins). Proved for any number of clients if every slot at the rates in use , one CTS and two picoseconds fit into the data time the client assumes."
  },
  {
   "property": "C134",
   "status": "partial",
   "theorems": [
    "C134_wait_partial",
    "C134_wait_refuted",
    "C134_returned"
   ],
   "note": "C134_full is refuted with the default symbol time of 10 ps: the header of the data alone takes 1360 ps. C134_returned: whenever the data take more than 676 ps, in every run in real time the energy has been given back before they can have arrived. C134_wait_partial: the timeout suffices for data shorter than what the delays leave of 676 ps."
  },
  {
   "property": "C135",
   "status": "partial",
   "theorems": [
    "C135_rts_wait",
    "C135_data_wait_partial",
    "C135_data_wait_refuted"
   ],
   "note": "3-way is proved as stated. 1-way is proved when the round trip takes less than the client's 6666 ps per metre plus 1 ns, with the sector timeout as well; C135_full (any node in range) is refuted: the client takes its distance to the origin for the distance to the access point."
  },
  {
   "property": "C136",
   "status": "proved",
   "theorems": [
    "C136_turning_ends",
    "C136_points",
    "C136_rotation"
   ],
   "note": "Angles and gains are real numbers (no rounding); the exponent is positive, as SetBeamwidth makes it for a beamwidth between 0 and 360 degrees (C110)."
  },
  {
   "property": "C137",
   "status": "partial",
   "theorems": [
    "C137_fair_partial",
    "C137_fair_refuted"
   ],
   "note": "Proved when the round trip takes the 6666 ps per metre the client subtracts or less than a slot more (access point at the origin; error 5 ps per metre). C137_full (any nodes in range) is refuted with an access point 10 m from the origin."
  },
  {
   "property": "C138",
   "status": "proved",
   "theorems": [
    "C138_wait"
   ],
   "note": ""
  },
  {
   "property": "C139",
   "status": "proved",
   "theorems": [
    "C139_wait"
   ],
   "note": ""
  },
  {
   "property": "C14",
   "status": "partial",
   "theorems": [
    "C14_enqueue_result_refuted",
    "C14_enqueue_result_partial"
   ],
   "note": "False as stated: a 64-byte packet is dropped while Enqueue returns true. Proved for every other size, in any state."
  },
  {
   "property": "C15",
   "status": "proved",
   "theorems": [
    "C15_accounting"
   ],
   "note": ""
  },
  {
   "property": "C16",
   "status": "proved",
   "theorems": [
    "C16_retry_limit"
   ],
   "note": ""
  },
  {
   "property": "C17",
   "status": "proved",
   "theorems": [
    "C17_backoff_window",
    "C17_large_limit_refuted"
   ],
   "note": "Also shown: with a limit above 32 the window computation is undefined behaviour."
  },
  {
   "property": "C18",
   "status": "proved",
   "theorems": [
    "C18_in_order"
   ],
   "note": ""
  },
  {
   "property": "C19",
   "status": "proved",
   "theorems": [
    "C19_success_delivered_once"
   ],
   "note": ""
  },
  {
   "property": "C20",
   "status": "proved",
   "theorems": [
    "C20_genuine",
    "C20_at_most_once"
   ],
   "note": "Proved without the bound on the number of packets."
  },
  {
   "property": "C21",
   "status": "partial",
   "theorems": [
    "C21_progress_refuted",
    "C21_progress_partial",
    "C21_bounded_partial"
   ],
   "note": "False as stated: with two destinations the MAC can come to rest with a packet queued. Proved for a single unicast destination, fewer than 65536 packets, retry limit at most 32 and no energy shortage (losses allowed): never stalled, and at rest everything accepted was transmitted and reported; left alone it comes to rest after a bounded number of events (any destinations)."
  },
  {
   "property": "C22",
   "status": "partial",
   "theorems": [
    "C22_broadcast_never_leaves_refuted",
    "C22_blocked_refuted"
   ],
   "note": "False as stated: proved that a broadcast packet never leaves the queue, and a run in which it blocks a unicast packet."
  },
  {
   "property": "C23",
   "status": "partial",
   "theorems": [
    "C23_late_transmission_refuted",
    "C23_late_transmission_partial"
   ],
   "note": "False as stated. Proved: at most as many late transmissions as backoff or next-packet events were pending for the packet."
  },
  {
   "property": "C24",
   "status": "partial",
   "theorems": [
    "C24_data_paid_refuted",
    "C24_data_paid_partial"
   ],
   "note": "False as stated in RTS mode (late CTS after the refund). Proved without RTS, for broadcast, and for the RTS frames."
  },
  {
   "property": "C25",
   "status": "proved",
   "theorems": [
    "C25_ack_policy"
   ],
   "note": ""
  },
  {
   "property": "C26",
   "status": "proved",
   "theorems": [
    "C26_other_frames",
    "C26_corrupted_frames"
   ],
   "note": ""
  },
  {
   "property": "C27",
   "status": "partial",
   "theorems": [
    "C27_ack_refund_refuted",
    "C27_energy_created_refuted",
    "C27_energy_bound_partial"
   ],
   "note": "False as stated. Proved: the energy bound when FrameLength does not exceed the packets, receiving costs no more than sending and CTS frames are not duplicated."
  },
  {
   "property": "C28",
   "status": "proved",
   "theorems": [
    "C28_sort_array"
   ],
   "note": ""
  },
  {
   "property": "C29",
   "status": "partial",
   "theorems": [
    "C29_slot_search_refuted",
    "C29_slot_search_partial"
   ],
   "note": "False beyond 2^53 fs: now + Ts and its double sum differ and the sentinel is not recognised (witness: default attributes at 72 s). Proved while all times are below 2^52 fs."
  },
  {
   "property": "C30",
   "status": "partial",
   "theorems": [
    "C30_no_overlap_refuted",
    "C30_no_overlap_partial",
    "C30_no_overlap_between_pulses_partial"
   ],
   "note": "False for a train that is inside a pulse at the time of SendPacket: its next pulse is not considered. Proved for all other trains, for times below 2^52 fs."
  },
  {
   "property": "C31",
   "status": "partial",
   "theorems": [
    "C31_refusal_refuted",
    "C31_refusal_partial"
   ],
   "note": "False for starts within one pulse of the borders of the symbol. Proved for all other starts, for times below 2^52 fs."
  },
  {
   "property": "C32",
   "status": "partial",
   "theorems": [
    "C32_half_duplex_refuted",
    "C32_half_duplex_partial"
   ],
   "note": "False for transmissions that have not begun and for touching pulses; exact otherwise, for times below 2^52 fs."
  },
  {
   "property": "C33",
   "status": "proved",
   "theorems": [
    "C33_reported_once",
    "C33_report",
    "C33_transmissions"
   ],
   "note": ""
  },
  {
   "property": "C34",
   "status": "proved",
   "theorems": [
    "C34_logged",
    "C34_announced_once",
    "C34_safe"
   ],
   "note": "For executions without disposal of devices (see C48)."
  },
  {
   "property": "C35",
   "status": "proved",
   "theorems": [
    "C35_noise_exact"
   ],
   "note": "For executions without disposal of devices (see C48)."
  },
  {
   "property": "C36",
   "status": "partial",
   "theorems": [
    "C36_round_trip_refuted",
    "C36_round_trip_partial"
   ],
   "note": "False for payloads of 59996 bytes, which arrive as 65000 zero bytes. Proved for all others."
  },
  {
   "property": "C37",
   "status": "proved",
   "theorems": [
    "C37_filter"
   ],
   "note": ""
  },
  {
   "property": "C38",
   "status": "partial",
   "theorems": [
    "C38_numbers_refuted",
    "C38_numbers_partial"
   ],
   "note": "False: m_sent is never incremented. Proved: the first datagram is numbered correctly."
  },
  {
   "property": "C39",
   "status": "partial",
   "theorems": [
    "C39_frame_refuted",
    "C39_frame_partial"
   ],
   "note": "False when the last datagram of a frame has fewer than 12 bytes (padding, or an empty extra datagram). Proved otherwise, with a surplus of at most 12 bytes in general."
  },
  {
   "property": "C40",
   "status": "partial",
   "theorems": [
    "C40_start_refuted",
    "C40_endless_refuted",
    "C40_start_partial"
   ],
   "note": "False: SetRemote empties the trace (undefined behaviour), and a trace without delays never ends an activation. Proved for non-empty traces with a delay."
  },
  {
   "property": "C41",
   "status": "partial",
   "theorems": [
    "C41_other_node_refuted",
    "C41_single_node_refuted",
    "C41_other_node_partial"
   ],
   "note": "False: the index into the container is compared with the node identifier. Proved for containers of the nodes 0..N-1; termination on every sequence of draws that contains another index."
  },
  {
   "property": "C42",
   "status": "partial",
   "theorems": [
    "C42_harvest_rate_refuted",
    "C42_chains_partial",
    "C42_single_chain_partial"
   ],
   "note": "False as stated: every DoInitialize starts a further harvest chain. Proved: exact rate when it runs once."
  },
  {
   "property": "C43",
   "status": "partial",
   "theorems": [
    "C43_success_means_acked_refuted",
    "C43_success_means_acked_partial"
   ],
   "note": "False once the sequence number has wrapped (witness: a run of 65538 packets). Proved for the first 65535 packets."
  },
  {
   "property": "C44",
   "status": "proved",
   "theorems": [
    "C44_delivery_order"
   ],
   "note": ""
  },
  {
   "property": "C45",
   "status": "partial",
   "theorems": [
    "C45_success_delivered_any_length_refuted",
    "C45_success_delivered_any_length_partial"
   ],
   "note": "False: packet 65536 is taken for a duplicate. Proved for the first 65535 packets."
  },
  {
   "property": "C46",
   "status": "partial",
   "theorems": [
    "C46_collision_refuted",
    "C46_collision_partial"
   ],
   "note": "False: ot.interference is not initialised. Proved for the case that it happens to be zero."
  },
  {
   "property": "C47",
   "status": "partial",
   "theorems": [
    "C47_sinr_threshold_refuted",
    "C47_sinr_threshold_partial"
   ],
   "note": "False: the linear ratio is compared with the dB threshold. Proved for the default threshold 10."
  },
  {
   "property": "C48",
   "status": "partial",
   "theorems": [
    "C48_dispose_refuted",
    "C48_dispose_partial"
   ],
   "note": "False: Clear on one device empties the channel. Proved for executions without disposal."
  },
  {
   "property": "C49",
   "status": "partial",
   "theorems": [
    "C49_goes_on_refuted",
    "C49_goes_on_partial",
    "C49_stopped"
   ],
   "note": "False after a refused datagram. Proved when the socket accepts all datagrams; the part about stopping is proved in full."
  },
  {
   "property": "C50",
   "status": "partial",
   "theorems": [
    "C50_file_refuted",
    "C50_file_partial"
   ],
   "note": "False for files that end with a newline: the last line is entered twice. Proved for the others."
  },
  {
   "property": "C51",
   "status": "partial",
   "theorems": [
    "C51_stopped_server_refuted",
    "C51_stopped_server_partial",
    "C51_counts"
   ],
   "note": "False for IPv6. Proved for IPv4; the counting part is proved in full."
  },
  {
   "property": "C52",
   "status": "partial",
   "theorems": [
    "C52_carrier_sense_refuted",
    "C52_carrier_sense_partial"
   ],
   "note": "False for a signal that begins during an own transmission. Proved for all others, up to the last nanosecond of the signal."
  },
  {
   "property": "C53",
   "status": "partial",
   "theorems": [
    "C53_once_refuted",
    "C53_once_partial"
   ],
   "note": "False: an undecodable packet is reported twice. Proved: a report concerns a packet that arrived, at its end; success is reported once and excludes failure; failure is reported at most twice."
  },
  {
   "property": "C54",
   "status": "partial",
   "theorems": [
    "C54_decodable_refuted",
    "C54_decodable_partial"
   ],
   "note": "False: signals that end before the packet are not counted. Proved for those that are still on the air at the end of the packet."
  },
  {
   "property": "C55",
   "status": "partial",
   "theorems": [
    "C55_half_duplex_refuted",
    "C55_half_duplex_partial"
   ],
   "note": "False if another signal arrives after the own transmission and before the end of the packet. Proved that this is the only way."
  },
  {
   "property": "C56",
   "status": "proved",
   "theorems": [
    "C56_one_transmission"
   ],
   "note": ""
  },
  {
   "property": "C57",
   "status": "proved",
   "theorems": [
    "C57_idle_again"
   ],
   "note": ""
  },
  {
   "property": "C58",
   "status": "partial",
   "theorems": [
    "C58_basic_rate_refuted",
    "C58_get_basic_rate_refuted",
    "C58_air_time_partial"
   ],
   "note": "False for control packets: BasicRate is not used. Proved for data packets, for control packets if both rates are equal, and the monotonicity."
  },
  {
   "property": "C59",
   "status": "partial",
   "theorems": [
    "C59_reported_refuted",
    "C59_reported_partial"
   ],
   "note": "False: if another signal ends within the last nanosecond, that one is reported as failed and the received packet is not reported; nor after an own transmission. Proved otherwise."
  },
  {
   "property": "C60",
   "status": "partial",
   "theorems": [
    "C60_return_refuted",
    "C60_size_refuted",
    "C60_enqueue_partial"
   ],
   "note": "False: Enqueue always returns false, and sizes are compared after truncation to 16 bits. Proved: what it does for sizes below 65536."
  },
  {
   "property": "C61",
   "status": "partial",
   "theorems": [
    "C61_limit_refuted",
    "C61_full_refuted",
    "C61_order_partial"
   ],
   "note": "False: QueueLimit is not used, whatever its value. Proved: order and uniqueness."
  },
  {
   "property": "C62",
   "status": "proved",
   "theorems": [
    "C62_accounting"
   ],
   "note": ""
  },
  {
   "property": "C63",
   "status": "partial",
   "theorems": [
    "C63_limits_refuted",
    "C63_five_partial"
   ],
   "note": "False in both directions: the limit is the constant 5. Proved: a discarded packet had five timeouts."
  },
  {
   "property": "C64",
   "status": "partial",
   "theorems": [
    "C64_progress_refuted",
    "C64_progress_partial"
   ],
   "note": "False with two queued packets. Proved if the upper layer hands over one unicast packet at a time."
  },
  {
   "property": "C65",
   "status": "partial",
   "theorems": [
    "C65_nav_refuted",
    "C65_nav_partial"
   ],
   "note": "False if an access grant of an earlier backoff is pending. Proved otherwise."
  },
  {
   "property": "C66",
   "status": "proved",
   "theorems": [
    "C66_responses"
   ],
   "note": ""
  },
  {
   "property": "C67",
   "status": "proved",
   "theorems": [
    "C67_delivery"
   ],
   "note": ""
  },
  {
   "property": "C68",
   "status": "proved",
   "theorems": [
    "C68_success"
   ],
   "note": ""
  },
  {
   "property": "C69",
   "status": "partial",
   "theorems": [
    "C69_delivered_refuted",
    "C69_delivered_partial"
   ],
   "note": "False when sequence numbers wrap around, which the uninitialised counter allows with two packets. Proved: the packet was received, and handed up unless a packet with a larger number was."
  },
  {
   "property": "C70",
   "status": "partial",
   "theorems": [
    "C70_defined_refuted",
    "C70_defined_partial"
   ],
   "note": "False: completing the last recorded packet increments an end iterator. Proved: apart from this and ResultsRecord on an empty result, no step is undefined."
  },
  {
   "property": "C71",
   "status": "partial",
   "theorems": [
    "C71_antenna_refuted",
    "C71_antenna_partial",
    "C71_deaf_forever"
   ],
   "note": "False after the first accepted packet, and then for ever. Proved until then."
  },
  {
   "property": "C72",
   "status": "proved",
   "theorems": [
    "C72_acks"
   ],
   "note": ""
  },
  {
   "property": "C73",
   "status": "partial",
   "theorems": [
    "C73_acknowledged_refuted",
    "C73_acknowledged_partial"
   ],
   "note": "False: a sector timeout during a reception loses an ACK. Proved: exact balance, and losses only while receiving or transmitting."
  },
  {
   "property": "C74",
   "status": "partial",
   "theorems": [
    "C74_progress_refuted",
    "C74_progress_partial"
   ],
   "note": "False: after a lost ACK the access point stops for ever. Proved while no ACK is lost and nothing undefined happened."
  },
  {
   "property": "C75",
   "status": "partial",
   "theorems": [
    "C75_single_refuted",
    "C75_single_partial"
   ],
   "note": "False: data that ends after the sector starts a second round. Proved if all data is received before the end of its sector."
  },
  {
   "property": "C76",
   "status": "partial",
   "theorems": [
    "C76_announced_refuted",
    "C76_announced_partial",
    "C76_mute"
   ],
   "note": "False in the state RX, which can last for ever. Proved in the state IDLE."
  },
  {
   "property": "C77",
   "status": "partial",
   "theorems": [
    "C77_slots_refuted",
    "C77_wrap_refuted",
    "C77_slots_partial"
   ],
   "note": "False for nodes at different distances and if waiting times exceed 65535 ns. Proved otherwise, with the exact margin."
  },
  {
   "property": "C78",
   "status": "partial",
   "theorems": [
    "C78_timeout_refuted",
    "C78_timeout_partial"
   ],
   "note": "False if the rate is slower than the default rate. Proved otherwise, for a bounded number of nodes."
  },
  {
   "property": "C79",
   "status": "partial",
   "theorems": [
    "C79_rate_refuted",
    "C79_rate_partial"
   ],
   "note": "False below the lowest threshold. Proved above it."
  },
  {
   "property": "C80",
   "status": "proved",
   "theorems": [
    "C80_sectors"
   ],
   "note": ""
  },
  {
   "property": "C81",
   "status": "partial",
   "theorems": [
    "C81_cycle_refuted",
    "C81_cycle_partial"
   ],
   "note": "False if the beamwidth does not divide 360. Proved otherwise, with the angle of every turn."
  },
  {
   "property": "C82",
   "status": "partial",
   "theorems": [
    "C82_delivery_refuted",
    "C82_delivery_partial"
   ],
   "note": "False: the destination is not checked. Proved: exactly which packets are handed up, in which order."
  },
  {
   "property": "C83",
   "status": "partial",
   "theorems": [
    "C83_defined_refuted",
    "C83_defined_partial"
   ],
   "note": "False with two interleaved rounds. Proved if all data is received before the end of its sector."
  },
  {
   "property": "C84",
   "status": "proved",
   "theorems": [
    "C84_grants"
   ],
   "note": ""
  },
  {
   "property": "C85",
   "status": "partial",
   "theorems": [
    "C85_enqueue_refuted",
    "C85_limit_refuted",
    "C85_enqueue_partial"
   ],
   "note": "False: returns false always, QueueLimit is not used. Proved: what is taken, numbers differ."
  },
  {
   "property": "C86",
   "status": "proved",
   "theorems": [
    "C86_accounting"
   ],
   "note": ""
  },
  {
   "property": "C87",
   "status": "proved",
   "theorems": [
    "C87_success"
   ],
   "note": ""
  },
  {
   "property": "C88",
   "status": "partial",
   "theorems": [
    "C88_limits_refuted",
    "C88_limits_partial"
   ],
   "note": "False: one counter for both kinds of failures. Proved: the exact rule."
  },
  {
   "property": "C89",
   "status": "partial",
   "theorems": [
    "C89_timeouts_refuted",
    "C89_timeouts_partial"
   ],
   "note": "False if an RTS finds the client receiving. Proved otherwise."
  },
  {
   "property": "C90",
   "status": "proved",
   "theorems": [
    "C90_rts"
   ],
   "note": ""
  },
  {
   "property": "C91",
   "status": "partial",
   "theorems": [
    "C91_ghost_refuted",
    "C91_ghost_partial"
   ],
   "note": "False after the last timeout. Proved: the packet was the oldest one when the announcement came."
  },
  {
   "property": "C92",
   "status": "partial",
   "theorems": [
    "C92_feedback_refuted",
    "C92_feedback_partial"
   ],
   "note": "False: feedback to other nodes is taken for an announcement. Proved: everything else."
  },
  {
   "property": "C93",
   "status": "proved",
   "theorems": [
    "C93_granted",
    "C93_once"
   ],
   "note": ""
  },
  {
   "property": "C94",
   "status": "proved",
   "theorems": [
    "C94_broadcast"
   ],
   "note": ""
  },
  {
   "property": "C95",
   "status": "partial",
   "theorems": [
    "C95_backoff_refuted",
    "C95_stuck",
    "C95_backoff_partial"
   ],
   "note": "False if the packet is sent by a late CTS: the client is lost for ever. Proved as long as the packet has its record."
  },
  {
   "property": "C96",
   "status": "partial",
   "theorems": [
    "C96_life_refuted",
    "C96_life_partial"
   ],
   "note": "False for limits above 16. Proved for limits from 1 to 16."
  },
  {
   "property": "C97",
   "status": "partial",
   "theorems": [
    "C97_negative_refuted",
    "C97_missed_refuted",
    "C97_negative_partial",
    "C97_three_partial"
   ],
   "note": "False in both modes. Proved for 1-way mode if PropDelay covers the distance. 3-way mode: only if a CTS for the packet announced a longer wait than the client allows for the grants it has heard, i.e. if it missed some."
  },
  {
   "property": "C98",
   "status": "partial",
   "theorems": [
    "C98_defined_refuted",
    "C98_defined_partial"
   ],
   "note": "False when the last record is removed. Proved: this and a result without a file are the only cases."
  },
  {
   "property": "C99",
   "status": "partial",
   "theorems": [
    "C99_fifo_refuted",
    "C99_fifo_partial"
   ],
   "note": "False with an unsolicited CTS. Proved if every CTS with the number of a packet of the client answers an RTS for it."
  }
 ]
}