{"id": "C01", "title": "Primary header decode is exactly the CCSDS bit layout", "statement": "PrimaryHeader::decode(buf) returns, for every buffer of at least 6 bytes, the big-endian bit fields version=bits 0..2, type=bit 3, secondary header flag=bit 4, apid=bits 5..15, sequence flags=bits 16..17, sequence id=bits 18..31, len_minus1=bits 32..47, whatever follows byte 5; for a shorter buffer it returns NotEnoughData{got: buf.len(), wanted: 6}. Every in-range header is the decode of its 48-bit encoding, and the six bytes are recoverable from the decoded fields.", "quantifier": "every byte buffer of every length; every in-range header value", "why_tests_cant": "2^48 headers and unboundedly many buffers; a unit test checks one or two literals and cannot exclude a mask or shift slip on another bit.", "anchors": ["ccsds-lib/src/spacepacket/mod.rs: PrimaryHeader::decode"]}
{"id": "C02", "title": "Packet::decode takes exactly one packet from the front of a buffer", "statement": "Packet::decode(buf) never panics; it succeeds iff buf holds the 6 header bytes plus len_minus1+1 data bytes, and then the packet's data is exactly that prefix of buf and its header is the decode of buf; otherwise it returns NotEnoughData with got = buf.len() and wanted = 6 or the total packet length. Appending bytes to a decodable buffer does not change the result.", "quantifier": "every byte buffer", "why_tests_cant": "Ranges over all buffers and all 65536 length fields; boundary errors only show at particular lengths.", "anchors": ["ccsds-lib/src/spacepacket/mod.rs: Packet::decode"]}
{"id": "C03", "title": "decode_packets recovers every packet of a concatenated stream", "statement": "For every finite list of well-formed packets of at most 65536 bytes each, and every incomplete tail (fewer than 6 bytes, or a header announcing at most 65536 bytes of which some are lacking), iterating decode_packets over the concatenation (packets then tail) yields exactly those packets in order, with data and header unchanged and with offset equal to the byte position of the packet in the stream, and then ends; nothing is yielded for the incomplete tail.", "quantifier": "every list of packets, every strict prefix of a packet as tail", "why_tests_cant": "Unbounded streams; loss, duplication or offset drift may appear only after many packets.", "anchors": ["ccsds-lib/src/spacepacket/mod.rs: decode_packets, PacketDecoder::next, Packet::read"]}
{"id": "C04", "title": "decode_packets does not depend on how the reader delivers the bytes", "statement": "The items produced by decode_packets depend only on the bytes the reader delivers, not on how they are split into short reads nor on how many ErrorKind::Interrupted results are interspersed.", "quantifier": "every reader delivering the same bytes with any chunking and any interleaving of Interrupted", "why_tests_cant": "Schedules of short reads and signals are not under a test's control and there are exponentially many.", "anchors": ["ccsds-lib/src/spacepacket/mod.rs: Packet::read, PacketDecoder::next"]}
{"id": "C05", "title": "Packets longer than 65536 bytes in a stream", "statement": "A call of next on decode_packets panics exactly when the next 6 bytes of the stream are a header with length field 65530..65535. So, contrary to what a user expects, a legal CCSDS packet of 65537..65542 bytes cannot be read from a stream (the read buffer has 65536 bytes), although Packet::decode accepts the same bytes.", "quantifier": "every length field value and every stream position", "why_tests_cant": "Only 6 of 65536 length values trigger it, and only when the stream reaches such a header.", "anchors": ["ccsds-lib/src/spacepacket/mod.rs: Packet::MAX_LEN, Packet::read"]}
{"id": "C06", "title": "I/O errors are forwarded, and end-of-file ends the packet iterator", "statement": "When the reader fails with an I/O error other than UnexpectedEof or Interrupted while a packet is being read, decode_packets yields exactly that error as the next item; when it reaches end of file (or reports UnexpectedEof) it yields None. No error is swallowed and no packet is fabricated from a partial read.", "quantifier": "every reader history with errors at any point", "why_tests_cant": "The point of failure can be any byte of any packet.", "anchors": ["ccsds-lib/src/spacepacket/mod.rs: PacketDecoder::next"]}
{"id": "C07", "title": "Termination of decode_packets(..).filter_map(Result::ok)", "statement": "decode_packets(reader).filter_map(Result::ok), the idiom of the CLI, the merger and the Python module: on every reader with finitely many events (data, interruptions, failures) followed by end of file, each call returns and the iteration ends: it yields exactly the Ok items of decode_packets, in order, and ends or panics as decode_packets does (the same holds of synchronize(..).filter_map(Result::ok), which never panics). Contrary to what a user expects this fails on a reader that keeps failing (e.g. a directory opened as a file): the call never returns.", "quantifier": "every reader, including those that fail forever", "why_tests_cant": "Non-termination cannot be observed by a finite test run.", "anchors": ["ccsds-lib/src/spacepacket/mod.rs: PacketDecoder::next", "ccsds-cmd/src/info.rs: summarize", "ccsds-cmd/src/diff.rs: diff", "ccsds-py/src/lib.rs: py_decode_packets"]}
{"id": "C08", "title": "missing_packets counts the gap modulo 2^14", "statement": "For all 14-bit sequence ids cur and last, missing_packets(cur,last) is (cur - last - 1) mod 16384 and does not overflow in any build profile; in particular it is 0 iff cur is the successor of last (with 16383 followed by 0), and 16383 for a repeated id.", "quantifier": "every pair of 14-bit sequence ids", "why_tests_cant": "2^28 pairs; the existing test checks five.", "anchors": ["ccsds-lib/src/spacepacket/mod.rs: missing_packets"]}
{"id": "C09", "title": "collect_groups partitions its input", "statement": "Concatenating the packets of the groups yielded by collect_groups gives back the input packets, in order, with none lost, duplicated or altered; every group is non-empty, and all its packets have the group's apid. All results are Ok.", "quantifier": "every finite sequence of packets", "why_tests_cant": "Unbounded sequences with arbitrary apid/flag interleavings.", "anchors": ["ccsds-lib/src/spacepacket/mod.rs: collect_groups, PacketGroupIter::next"]}
{"id": "C10", "title": "Group boundaries of collect_groups", "statement": "The groups of collect_groups are exactly: a single standalone packet, or a maximal run of packets with the same apid whose first packet is not standalone. Contrary to what a user expects, sequence flags do not end a group: two complete groups of one apid back to back come out as one group, and complete() answers true for it if the sequence ids are continuous.", "quantifier": "every finite sequence of packets", "why_tests_cant": "Depends on the adjacency of two groups of the same apid, which fixtures need not contain.", "anchors": ["ccsds-lib/src/spacepacket/mod.rs: PacketGroupIter::next, PacketGroup::complete"]}
{"id": "C11", "title": "PacketGroup::complete and have_missing", "statement": "have_missing() is true iff some two neighbouring packets have non-consecutive 14-bit sequence ids (mod 16384). complete() is true iff the group is one standalone packet, or has at least two packets, begins with SEQ_FIRST, ends with SEQ_LAST and has no such gap; it never panics. have_missing() panics exactly on the empty group.", "quantifier": "every group of packets, including the empty one", "why_tests_cant": "All group lengths and all id sequences.", "anchors": ["ccsds-lib/src/spacepacket/mod.rs: PacketGroup::complete, PacketGroup::have_missing"]}
{"id": "C12", "title": "Summary totals", "statement": "After adding any sequence of packets to a default Summary, count is the number of packets, bytes the sum of their lengths, and for every apid the per-apid count, bytes and missing are those of the subsequence of packets with that apid, where missing is the sum of missing_packets over neighbouring packets of that subsequence; the overall missing is the sum of the per-apid values; apids lists exactly the apids seen.", "quantifier": "every sequence of packets with any interleaving of apids", "why_tests_cant": "Histories of unbounded length over 2048 apids.", "anchors": ["ccsds-lib/src/spacepacket/summary.rs: Summary::add"]}
{"id": "C13", "title": "CDS timecode decoding", "statement": "For Format::Cds with num_day at most 4 and num_submillis in {0,2}, timecode::decode of a sufficiently long buffer is the UTC epoch 1958-01-01 + day*86400s + ms + us taken from the big-endian fields, and bytes after the timecode are ignored; a buffer shorter than num_day+num_submillis+4 gives NotEnoughData with those numbers; a num_submillis other than 0, 2, 4 gives a Timecode error (for num_day <= 4 and a long enough buffer) and never a value.", "quantifier": "every buffer and every configuration", "why_tests_cant": "All 2^64 field values and all buffer lengths.", "anchors": ["ccsds-lib/src/timecode.rs: decode, decode_cds"]}
{"id": "C14", "title": "CDS 4-byte sub-millisecond field", "statement": "For num_submillis = 4 (documented as picoseconds) the decoded time adds the 32-bit field times 1,000,000 nanoseconds for field values below 4295; for every larger value it panics with overflow checks and otherwise adds the product modulo 2^32. So, contrary to the documentation, with overflow checks no non-zero picosecond value is decoded correctly.", "quantifier": "every value of the 32-bit field, both overflow profiles", "why_tests_cant": "No test exists for this width; the error is silent in release builds.", "anchors": ["ccsds-lib/src/timecode.rs: decode_cds, Format::Cds"]}
{"id": "C15", "title": "CUC timecode decoding", "statement": "For Format::Cuc with num_coarse in 1..4 and num_fine in 0..3, timecode::decode of a sufficiently long buffer is the TAI epoch 1958-01-01 + coarse seconds + floor(fine*fine_mult) nanoseconds (at most 2^64-1; fine_mult defaulting to 1), with no loss of precision in the floating point product; other widths give a Timecode error, a short buffer NotEnoughData. A multiplier that is zero, negative or NaN adds nothing; an infinite one adds 2^64-1 nanoseconds unless the fine field is 0.", "quantifier": "every buffer, width and fine_mult", "why_tests_cant": "All field values and all single precision multipliers.", "anchors": ["ccsds-lib/src/timecode.rs: decode_cuc"]}
{"id": "C16", "title": "When timecode decoding panics", "statement": "timecode::decode with a Cds format panics iff the buffer is long enough and num_day > 4 or (with overflow checks) the 4-byte sub-millisecond field is 4295 or more; with a Cuc format it never panics.", "quantifier": "every format and buffer", "why_tests_cant": "Panics depend on configuration values no test enumerates.", "anchors": ["ccsds-lib/src/timecode.rs: decode_cds, decode_cuc"]}
{"id": "C17", "title": "TimecodeDecoder picks the most recently registered format", "statement": "After any sequence of register calls, TimecodeDecoder::decode(packet) uses the format of the last call whose apid list contained the packet's apid, and the default format if there was none, applied to the packet bytes after the 6-byte primary header.", "quantifier": "every sequence of register calls, every packet of at least 6 bytes", "why_tests_cant": "Histories of registrations.", "anchors": ["ccsds-lib/src/spacepacket/timecode.rs: TimecodeDecoder::register, TimecodeDecoder::decode"]}
{"id": "C18", "title": "Merger output is a duplicate-free selection that misses nothing", "statement": "For error-free input files, every eligible group (first packet FIRST or standalone, decodable time t with from <= t < to, apid in the requested set or no set given) of every file is represented in the merged output by exactly one group with the same (time, apid, first sequence id), and every output group is an eligible group of some input file, written with exactly its bytes.", "quantifier": "every set of input files and every iteration order of the hash tables involved", "why_tests_cant": "Hash iteration order is random per process; tests see one order and two fixture files.", "anchors": ["ccsds-lib/src/spacepacket/merge.rs: Merger::merge, Ptr"]}
{"id": "C19", "title": "Merger output is ordered by time, then by apid order value", "statement": "The groups written by Merger::merge are in non-decreasing (time, order value) order, where the order value is the apid, or the value assigned by with_apid_order.", "quantifier": "every set of input files, order configuration and hash order", "why_tests_cant": "Sorting errors depend on data; hash order varies per run.", "anchors": ["ccsds-lib/src/spacepacket/merge.rs: Merger::merge"]}
{"id": "C20", "title": "Order of apids with with_apid_order", "statement": "Among groups of the same time, the output of a merger with with_apid_order(list of distinct apids, at most 2048) has the unlisted apids first, by increasing apid, then the listed ones in the reverse of the listed order. This is the opposite of what the documentation says: of two groups of the same time whose apids are listed, the earlier listed comes later, and every listed comes after every unlisted.", "quantifier": "every order list and every pair of apids", "why_tests_cant": "Requires same-time packets of different apids in a configured order.", "anchors": ["ccsds-lib/src/spacepacket/merge.rs: Merger::with_apid_order", "ccsds-cmd/src/merge.rs: apid_order"]}
{"id": "C21", "title": "Merger and incomplete groups", "statement": "Only the first packet of a group is inspected by the merger: contrary to what a user expects from its description, an incomplete group (PacketGroup::complete() = false), for instance a lone FIRST packet, is merged and written.", "quantifier": "every input file", "why_tests_cant": "Requires a truncated group in the input.", "anchors": ["ccsds-lib/src/spacepacket/merge.rs: Merger::merge"]}
{"id": "C22", "title": "Determinism of the merger output", "statement": "The merged output is the same for all iteration orders of the hash tables whenever eligible groups with equal time and order value have the same key and the same bytes. Otherwise it need not be, contrary to what a user expects: for every two standalone packets of one apid and time with different sequence ids, both output orders occur.", "quantifier": "every pair of hash iteration orders", "why_tests_cant": "Hash order is not controllable from a test.", "anchors": ["ccsds-lib/src/spacepacket/merge.rs: Merger::merge"]}
{"id": "C23", "title": "Synchronization finds the earliest sync marker at any bit alignment", "statement": "Over any finite input delivered without errors, each item of synchronize() starts at the first bit position at or after the end of the previous block where the marker's bits occur, at any of the 8 bit alignments, and iteration ends only when no further occurrence exists. No occurrence is skipped and none is invented, for every marker.", "quantifier": "every byte stream, every non-empty marker, every bit alignment", "why_tests_cant": "Partial matches, overlapping candidates and push-back interleavings are combinatorial in the data.", "anchors": ["ccsds-lib/src/framing/synchronizer.rs: Synchronizer::scan, create_patterns, BlockIter::next", "ccsds-lib/src/framing/bytes.rs: Bytes", "ccsds-lib/src/framing/pipeline/synchronize.rs: synchronize"]}
{"id": "C24", "title": "Synchronized block data is the realigned bits after the marker", "statement": "Every block yielded whose data lies completely inside the stream contains exactly the 8*length bits following its marker, realigned to bytes, whatever the bit alignment.", "quantifier": "every stream, alignment, block length", "why_tests_cant": "8 alignments times all data; errors show only with certain byte carries.", "anchors": ["ccsds-lib/src/framing/synchronizer.rs: Synchronizer::block, left_shift"]}
{"id": "C25", "title": "CADU stream round trip", "statement": "For every sequence of blocks of the configured length, each preceded by the marker, sent back to back at any bit offset after any junk in which the marker does not occur earlier, synchronize yields exactly those blocks in order and then ends - even when block data contains the marker's bit pattern.", "quantifier": "every list of blocks, every junk prefix, all bit alignments, all trailing bits", "why_tests_cant": "False marker occurrences inside data are adversarial and cannot be enumerated.", "anchors": ["ccsds-lib/src/framing/synchronizer.rs: BlockIter::next"]}
{"id": "C26", "title": "Block location bookkeeping", "statement": "For every block, (offset, bit) designates the stream position of its first data bit: data starts at bit 8*(offset-1) + ((8-bit) mod 8) of the stream; last is 0 for the first block and afterwards the difference of the offsets, and the subtraction never underflows.", "quantifier": "every stream and marker", "why_tests_cant": "Push-back bookkeeping errors depend on the history.", "anchors": ["ccsds-lib/src/framing/synchronizer.rs: Loc, Block, BlockIter::next", "ccsds-lib/src/framing/bytes.rs: Bytes::offset"]}
{"id": "C27", "title": "A truncated final block", "statement": "If the stream ends inside the last block, the iterator does not simply end, as a user would expect: when the marker was byte aligned, a full-length block is yielded, zero padded, as if it were data; when it was not, an UnexpectedEof error item is yielded. In both cases nothing follows.", "quantifier": "every truncation point and alignment", "why_tests_cant": "Every truncation point times alignment; fixtures are cut at CADU boundaries.", "anchors": ["ccsds-lib/src/framing/synchronizer.rs: BlockIter::next, Synchronizer::block", "ccsds-lib/src/framing/bytes.rs: Bytes::fill"]}
{"id": "C28", "title": "Synchronization terminates and never panics", "statement": "On every finite stream and non-empty marker, each call of next on the synchronize iterator returns, never panics, and only finitely many items are yielded.", "quantifier": "every finite stream", "why_tests_cant": "The scan loop pushes bytes back; a non-progressing cycle would be a hang.", "anchors": ["ccsds-lib/src/framing/synchronizer.rs: Synchronizer::scan"]}
{"id": "C29", "title": "Synchronization is independent of read chunking, but not of Interrupted reads", "statement": "The items yielded depend only on the bytes, interruptions and errors delivered, not on how the reader chunks the bytes. Contrary to the usual contract of readers an ErrorKind::Interrupted is not retried: in the middle of a marker it becomes an error item and the block behind that marker is lost.", "quantifier": "every chunking; every position of an interruption", "why_tests_cant": "Depends on the OS schedule.", "anchors": ["ccsds-lib/src/framing/bytes.rs: Bytes::next, Bytes::fill", "ccsds-lib/src/framing/synchronizer.rs: Synchronizer::scan"]}
{"id": "C30", "title": "Derandomization is the CCSDS pseudo-random sequence, and an involution", "statement": "DefaultDerandomizer::derandomize preserves length, is its own inverse, acts on each byte independently of the others, and XORs bit n of the data with bit n of the CCSDS 131.0 sequence generated by x^8+x^7+x^5+x^3+1 from the all-ones state, for blocks of any length.", "quantifier": "every byte string of every length", "why_tests_cant": "The table has 255 entries and is used cyclically; a test of 6 bytes checks 2% of it.", "anchors": ["ccsds-lib/src/framing/pn.rs: SEQUENCE, _derandomize_loop, generate_pn_sequence"]}
{"id": "C31", "title": "VCDU header decode", "statement": "VCDUHeader::decode returns None iff the data has fewer than 6 bytes or the 2 version bits are 2 or 3; version bits 0 give scid=bits 2..11, vcid=bits 12..14, counter=bytes 2..3, version bits 1 give scid=bits 2..9, vcid=bits 10..15, counter=bytes 2..4.", "quantifier": "every byte string", "why_tests_cant": "2^48 headers.", "anchors": ["ccsds-lib/src/framing/mod.rs: VCDUHeader::decode, decode_v1, decode_v2"]}
{"id": "C32", "title": "missing_frames counts the counter gap", "statement": "missing_frames(cur, last) for 24-bit counters: for last < cur it is cur-last-1, the true number; for cur <= last < 0xffffff it is (cur-last-1) modulo 2^24-1, so every gap across the roll-over is undercounted by one; for last = 0xffffff > cur it panics with overflow checks, and otherwise is 4294967295 for cur = 0, the regular successor, and cur-1 for the others.", "quantifier": "every pair of 24-bit counters, both overflow profiles", "why_tests_cant": "2^48 pairs; the failing ones need a counter at the very end of its range.", "anchors": ["ccsds-lib/src/framing/mod.rs: missing_frames, VCDUHeader::COUNTER_MAX"]}
{"id": "C33", "title": "Frame missing counts are per virtual channel", "statement": "In the output of frame_decoder each frame carries the CADU's data and decoded header; its missing count is 0 for fill frames and for the first frame of a vcid, and otherwise missing_frames of its counter and the counter of the previous frame with the same vcid, however frames of other vcids are interleaved.", "quantifier": "every sequence of CADUs with supported headers", "why_tests_cant": "All interleavings of 64 channels.", "anchors": ["ccsds-lib/src/framing/pipeline/framing.rs: frame_decoder, CaduDecoderIter::next"]}
{"id": "C34", "title": "frame_decoder and undecodable CADUs", "statement": "frame_decoder yields the frames of the longest prefix of CADUs whose headers can be decoded: contrary to what a user expects, the first undecodable CADU ends the iteration and all CADUs after it are lost.", "quantifier": "every sequence of CADUs", "why_tests_cant": "Needs a corrupted header inside a stream.", "anchors": ["ccsds-lib/src/framing/pipeline/framing.rs: CaduDecoderIter::next"]}
{"id": "C35", "title": "Frame::mpdu extracts the M_PDU zone", "statement": "Frame::mpdu(izone, trailer) returns the bytes between the 6-byte header plus insert zone and the trailer, with the first-header pointer being the low 11 bits of its first two bytes and the payload everything after them; it returns None iff that zone has fewer than 2 bytes; it panics iff the frame is shorter than header + insert zone + trailer.", "quantifier": "every frame and every pair of lengths", "why_tests_cant": "All lengths; panics for short frames only.", "anchors": ["ccsds-lib/src/framing/mod.rs: Frame::mpdu, MPDU::decode, MPDU::payload, MPDU::header_offset"]}
{"id": "C36", "title": "Packet reassembly round trip", "statement": "If packets (version 0, telemetry) are concatenated, cut into frame payloads of any constant size with correct first-header pointers and sent on one vcid without loss, then packet_decoder, starting at any frame of the sequence, yields exactly the packets that start at or after the first packet boundary in the starting frame and end inside the last frame, in order, byte for byte.", "quantifier": "every packet list, payload size and starting frame; packets may span any number of frames or headers may straddle frames", "why_tests_cant": "All alignments of packets against frame boundaries.", "anchors": ["ccsds-lib/src/framing/packets.rs: FramedPacketIter::next", "ccsds-lib/src/framing/pipeline/packets.rs: packet_decoder"]}
{"id": "C37", "title": "Virtual channels do not interfere in packet_decoder", "statement": "The packets a frame contributes to the output of packet_decoder depend only on the preceding frames of the same vcid: interleaving frames of other vcids neither adds, removes nor alters them.", "quantifier": "every interleaving of frames of any vcids, with any losses and integrity values", "why_tests_cant": "All interleavings.", "anchors": ["ccsds-lib/src/framing/packets.rs: FramedPacketIter"]}
{"id": "C38", "title": "No packet is built across missing or errored frames", "statement": "Every packet yielded by packet_decoder is a contiguous slice of the payloads of consecutive frames of one vcid, beginning at the first-header pointer of the first of them, none of these frames being uncorrectable/not corrected and none but the first being preceded by a gap; its length matches its header, and its header has version 0 and type 0.", "quantifier": "every frame sequence with any losses and integrity values", "why_tests_cant": "All loss patterns.", "anchors": ["ccsds-lib/src/framing/packets.rs: FramedPacketIter::next"]}
{"id": "C39", "title": "packet_decoder restarts cleanly after a gap or an errored frame", "statement": "On one vcid, a frame with missing > 0 is decoded as if it were the first frame ever seen, and after an Uncorrectable or NotCorrected frame decoding continues as if newly started; packets completed before are unaffected.", "quantifier": "every history before and after the disturbance", "why_tests_cant": "All histories.", "anchors": ["ccsds-lib/src/framing/packets.rs: FramedPacketIter::next, VcidTracker::reset"]}
{"id": "C40", "title": "When packet_decoder panics", "statement": "packet_decoder panics iff it reaches a frame shorter than 6 + izone_length + trailer_length + 2 bytes; otherwise each call returns, and the iteration ends when the frames do.", "quantifier": "every frame sequence", "why_tests_cant": "All frame lengths and configurations.", "anchors": ["ccsds-lib/src/framing/packets.rs: FramedPacketIter::next", "ccsds-lib/src/framing/mod.rs: Frame::mpdu"]}
{"id": "C41", "title": "Reed-Solomon interleaving is transparent", "statement": "For every block of length 255*I (virtual fill in front included), the symbols handed to the RS codec are codeword k = bytes k, k+I, k+2I, ... of (fill ++ block), and if the codec reports all codewords error free and unchanged, perform returns Ok with exactly the block minus the last 32*I bytes.", "quantifier": "every interleave depth 1..255, virtual fill and block content", "why_tests_cant": "All depths, fills and contents.", "anchors": ["ccsds-lib/src/framing/reed_solomon.rs: deinterleave, DefaultReedSolomon::perform, remove_parity"]}
{"id": "C42", "title": "Reed-Solomon disposition and corrected data", "statement": "perform returns IntegrityAlgorithm error iff len + virtual_fill != 255*I; otherwise (correction enabled) Uncorrectable iff the codec reports some codeword uncorrectable, Ok iff no codeword needed correction, Corrected otherwise, and for Ok/Corrected the data are the codec's output codewords re-interleaved, without virtual fill and parity. With correction disabled the answer is NotCorrected iff the codec finds errors in some codeword and no codeword before that one is uncorrectable, and nothing else changes for blocks in which it finds no errors. It does not panic for I >= 1 and virtual_fill <= 223*I.", "quantifier": "every block, configuration and codec answer", "why_tests_cant": "All combinations of per-codeword outcomes.", "anchors": ["ccsds-lib/src/framing/reed_solomon.rs: DefaultReedSolomon::perform"]}
{"id": "C43", "title": "Switching detection off", "statement": "with_detection has no effect on perform: results are identical with detection on and off, for every configuration, block and codec. So with detection off blocks are still reported Uncorrectable or NotCorrected, contrary to the documentation.", "quantifier": "every block and codec", "why_tests_cant": "Flag combinations with errored data.", "anchors": ["ccsds-lib/src/framing/reed_solomon.rs: DefaultReedSolomon::with_detection, perform"]}
{"id": "C44", "title": "Data returned for uncorrectable blocks", "statement": "For NotCorrected, perform returns the virtual fill followed by the unchanged input; for Uncorrectable, the first 223*I bytes of that. So, contrary to the documentation, check symbols are not kept for Uncorrectable, and virtual fill is not removed. In the reed_solomon pipeline stage, frames with these dispositions keep their data unchanged.", "quantifier": "every block and codec answer", "why_tests_cant": "Needs uncorrectable blocks, with fill.", "anchors": ["ccsds-lib/src/framing/reed_solomon.rs: perform", "ccsds-lib/src/framing/pipeline/reed_solomon.rs: do_reed_solomon"]}
{"id": "C45", "title": "Parallel Reed-Solomon preserves frame order and content under every schedule", "statement": "Whatever the interleaving of the submit thread, the pool workers, the dispatch thread and the consumer, and whatever the buffer size, the frames received by the consumer are at any moment a prefix of the input frames in input order, each processed exactly once (fill frames untouched, header and missing count untouched).", "quantifier": "every schedule, number of frames, buffer size (including 0) and worker completion order", "why_tests_cant": "Schedules are not controllable and exponentially many.", "anchors": ["ccsds-lib/src/framing/pipeline/reed_solomon.rs: do_reed_solomon, reed_solomon"]}
{"id": "C46", "title": "Parallel Reed-Solomon neither deadlocks nor loses frames", "statement": "As long as the consumer keeps receiving and no RS job fails, some thread can always make progress until everything is delivered, every execution is finite, and when it can no longer continue all frames have been delivered and the output channel is closed.", "quantifier": "every schedule, buffer size including 0 and frame count", "why_tests_cant": "Deadlocks depend on rare schedules.", "anchors": ["ccsds-lib/src/framing/pipeline/reed_solomon.rs: do_reed_solomon, reed_solomon"]}
{"id": "C47", "title": "Agreement of frame headers with corrected frame data", "statement": "After the Reed-Solomon stage, frame.header is the decode of frame.data for every frame that the codec left unchanged. For a Corrected frame this can fail, contrary to what a user expects: headers are decoded before the correction and not updated, so a corrected frame can carry a corrupted vcid or counter.", "quantifier": "every frame and codec", "why_tests_cant": "Needs an error inside the 6 header bytes.", "anchors": ["ccsds-lib/src/framing/pipeline/reed_solomon.rs: do_reed_solomon", "ccsds-lib/src/framing/pipeline/builder.rs: Pipeline::start"]}
{"id": "C48", "title": "End-to-end decode of a transmitted stream", "statement": "Packets placed in AOS frames of any mix of virtual channels, RS encoded, randomized, prefixed with sync markers and sent at any bit offset are recovered exactly, channel by channel, by Pipeline::start followed by packet_decoder, for every thread schedule; blocks may be damaged as far as the codec recovers, if their frame header arrives intact; frame counters without roll-over.", "quantifier": "every packet list, frame size, channel, bit offset and junk prefix; any codec accepting its own codewords", "why_tests_cant": "Composition of all stages over all inputs.", "anchors": ["ccsds-lib/src/framing/pipeline/builder.rs: Pipeline::start", "ccsds-lib/src/framing/pipeline/packets.rs: packet_decoder"]}
{"id": "C49", "title": "CLI filter keeps exactly the requested packets", "statement": "ccsds filter with only apid options writes exactly the packets whose apid is included (if an include list is given) and not excluded, in order and unmodified; with time options it writes exactly the groups whose first packet is FIRST or standalone and whose CDS time t satisfies after <= t < before, and whose apid is wanted. Without a before option `before` is 2100-01-01, so that --after alone drops everything from then on.", "quantifier": "every input file and option combination", "why_tests_cant": "All option combinations times all data.", "anchors": ["ccsds-cmd/src/filter.rs: filter, packets_with_times"]}
{"id": "C50", "title": "CLI number range lists", "statement": "parse_number_ranges accepts exactly lists of decimal u32 numbers n and ranges a-b with a<b, and returns the numbers denoted, ranges inclusive at both ends (also for --exclude, whose help text says the end is exclusive).", "quantifier": "every list of argument strings", "why_tests_cant": "All strings.", "anchors": ["ccsds-cmd/src/main.rs: parse_number_ranges"]}
{"id": "C51", "title": "CLI diff count", "statement": "ccsds diff never reports a difference for files with the same multiset of (apid, sequence id, crc); otherwise its count is the size of the symmetric difference, less one if the greatest key does not occur equally often on both sides. So, contrary to what a user expects, a file that has exactly one more packet, with the greatest key, compares equal; two or more differences are always reported.", "quantifier": "every pair of files", "why_tests_cant": "Needs specific tails.", "anchors": ["ccsds-cmd/src/diff.rs: diff"]}
{"id": "C52", "title": "CLI info totals and time range", "statement": "ccsds info reports per apid and overall the number of packets, the sum of missing_packets over neighbours of each apid, and as first/last time the minimum/maximum of the decodable times of packets with a secondary header; duration is their difference; apids are listed in increasing order.", "quantifier": "every input file", "why_tests_cant": "All histories.", "anchors": ["ccsds-cmd/src/info.rs: summarize"]}
{"id": "C53", "title": "CLI framing output and counters", "statement": "ccsds framing counts the frames of the selected vcids (all but fill by default), writes the first `length` bytes of each of them that is not Uncorrectable/NotCorrected/Failed, and panics exactly if such a frame is shorter, which the frames of the pipeline it builds never are; total_frames = ok + corrected + uncorrectable + error + not_performed, and every total is the sum over vcids.", "quantifier": "every frame sequence and option combination", "why_tests_cant": "All histories and option combinations.", "anchors": ["ccsds-cmd/src/frame.rs: frame_aos"]}
{"id": "C54", "title": "Python timecode helpers", "statement": "decode_jpss_timecode of the Python module is the CDS decode with 2 day and 2 sub-millisecond bytes. decode_eos_timecode, contrary to its description, fails with a configuration error on every buffer: the widths of coarse and fine part are swapped.", "quantifier": "every buffer", "why_tests_cant": "No buffer ever succeeds; no test exists.", "anchors": ["ccsds-py/src/lib.rs: decode_eos_timecode", "ccsds-lib/src/timecode.rs: decode_cuc"]}
{"id": "C55", "title": "Pipeline termination on finite and on failing readers", "statement": "Pulling blocks in Pipeline::start returns for every reader with finitely many events followed by end of file, and the iteration ends. Contrary to what a user expects it never returns, after finitely many blocks, on a reader that keeps failing without ever reporting end of file.", "quantifier": "every reader, including ones failing forever", "why_tests_cant": "Non-termination.", "anchors": ["ccsds-lib/src/framing/pipeline/builder.rs: Pipeline::start"]}
{"id": "C56", "title": "ccsds filter on files", "statement": "`ccsds filter` writes to the output exactly the packets (without time options) or packet groups (with them) whose apid is included and not excluded and, with --before/--after, whose time is in range, in input order, and changes no other file. Numbers of 65536 and above in --include/--exclude are silently dropped: contrary to what a user expects, including only such numbers selects everything.", "quantifier": "every file system, well-formed input file, option list and existing output", "why_tests_cant": "All argument lists and file contents; the surprising case has no test.", "anchors": ["ccsds-cmd/src/main.rs: Commands::Filter", "ccsds-cmd/src/filter.rs: filter"]}
{"id": "C57", "title": "Output files of merge and filter", "statement": "Without --clobber an existing output is never touched; no file other than the output ever changes; a successful merge writes exactly the merged selection in order. Contrary to what a user expects, with --clobber a command that then fails has already emptied the output, and a command whose output is one of its inputs destroys that input.", "quantifier": "every file system, every argument list, every failure point", "why_tests_cant": "Every failure point and aliasing of input and output.", "anchors": ["ccsds-cmd/src/main.rs: Commands::Merge, Commands::Filter", "ccsds-cmd/src/merge.rs: merge"]}
{"id": "C58", "title": "Merge options", "statement": "An unknown apid order name fails without touching files; jpss-viirs overrides --apid-order and puts, among equal times, 821 and then 826 behind all other apids; --from/--to in whole seconds are converted exactly to microseconds, times before 1900 become 0. Contrary to what a user expects a fraction of a second may lose a microsecond in the conversion through f64.", "quantifier": "every argument list, every number of seconds below 2^53 microseconds", "why_tests_cant": "Floating-point rounding over all times; all argument combinations.", "anchors": ["ccsds-cmd/src/merge.rs: apid_order, merge"]}
{"id": "C59", "title": "Framing options and config file", "statement": "`ccsds framing` uses the options of the config file where given and else those of the command line, rejects zero lengths and malformed vcid lists before touching any file, and writes `length` bytes of each usable selected frame to the output, for every execution of the pipeline. Contrary to what a user expects the config's sync marker is ignored, and its interleave is taken modulo 256, so that 256 makes the decoding die on the first frame that is not fill.", "quantifier": "every option list, config, input file and thread schedule", "why_tests_cant": "All configurations and schedules.", "anchors": ["ccsds-cmd/src/main.rs: Commands::Framing", "ccsds-cmd/src/config.rs", "ccsds-cmd/src/frame.rs"]}
{"id": "C60", "title": "Python file functions", "statement": "decode_packets and decode_packet_groups of the Python module return, for a readable file, all packets with their offsets resp. the groups of these packets; for a missing file they raise.", "quantifier": "every file", "why_tests_cant": "All file contents.", "anchors": ["ccsds-py/src/lib.rs: decode_packets, decode_packet_groups"]}
{"id": "C61", "title": "Dropping the Reed-Solomon iterator early", "statement": "If the consumer drops the iterator returned by reed_solomon before its end all threads terminate, but contrary to what a user expects only after the whole input has been read and every frame processed.", "quantifier": "every input, every buffer size and thread count, every schedule and every moment of the drop", "why_tests_cant": "Schedules and drop points.", "anchors": ["ccsds-lib/src/framing/pipeline/reed_solomon.rs: reed_solomon"]}
{"id": "C62", "title": "Read errors inside an input", "statement": "When reading the input fails in the middle and then goes on, filtering by apid silently ends there, whereas filtering by time, info and diff silently skip the error and carry on behind it.", "quantifier": "every sequence of packets and errors", "why_tests_cant": "All positions of the error.", "anchors": ["ccsds-cmd/src/filter.rs: filter", "ccsds-cmd/src/info.rs: summarize", "ccsds-cmd/src/diff.rs"]}
{"id": "C63", "title": "Packet offsets after a read error", "statement": "After a read error in the middle of a packet decode_packets reports the error once and finds the packets behind it, but contrary to what a user expects the offsets of all later packets are too small by the number of bytes lost.", "quantifier": "every stream, every error position, every fragmentation into reads", "why_tests_cant": "All error positions and histories.", "anchors": ["ccsds-lib/src/spacepacket/mod.rs: PacketDecoder::next"]}
{"id": "C64", "title": "Reading a single packet", "statement": "Packet::read consumes exactly the bytes of one packet and returns it with offset 0, leaving the reader right behind it; on fewer bytes it returns the reader's error, or UnexpectedEof at the end of the stream, also on an empty stream.", "quantifier": "every reader with any fragmentation into reads, every following content", "why_tests_cant": "All fragmentations.", "anchors": ["ccsds-lib/src/spacepacket/mod.rs: Packet::read"]}
{"id": "C65", "title": "Pipeline builder options", "statement": "Without Reed-Solomon frame i of Pipeline::start is block i found behind the standard marker, bit for bit, xor the CCSDS sequence unless without_derandomization was called; the order of the builder calls is irrelevant and the last with_rs wins; with_rs feeds exactly these frames into the Reed-Solomon stage.", "quantifier": "every reader, length and option", "why_tests_cant": "All inputs.", "anchors": ["ccsds-lib/src/framing/pipeline/builder.rs: Pipeline"]}
{"id": "C66", "title": "Decoding is causal", "statement": "What a decoder yields for the beginning of an input does not depend on what follows: the packets decoded from a byte stream, the blocks found (all of whose bits are present) by the synchroniser, the frames decoded from CADUs and the packets decoded from frames are the first ones yielded when more input is appended; of the packet groups all but the last are unchanged, and the last can only gain packets (not if it is a standalone packet).", "quantifier": "every input of every stage and every continuation of it", "why_tests_cant": "All pairs of an input and a continuation.", "anchors": ["ccsds-lib/src/spacepacket/mod.rs: decode_packets", "ccsds-lib/src/framing/synchronizer.rs: Synchronizer", "ccsds-lib/src/framing/pipeline/framing.rs: frame_decoder", "ccsds-lib/src/framing/pipeline/packets.rs: packet_decoder", "ccsds-lib/src/spacepacket/mod.rs: collect_groups, PacketGroupIter::next"]}
{"id": "C67", "title": "Reed-Solomon stage on a live source", "statement": "While the source has nothing more to give yet, the multi-threaded stage does not hold anything back: in every state where only the source can act, the consumer has received the corrected version of every frame taken so far. A consumer that stops reading stops the source: at most 3*buffer_size + 2 frames are taken beyond those received.", "quantifier": "every frame sequence, buffer size, thread count and schedule", "why_tests_cant": "All interleavings of the stages.", "anchors": ["ccsds-lib/src/framing/pipeline/reed_solomon.rs: reed_solomon, do_reed_solomon"]}
{"id": "C68", "title": "Frame counter roll-over in builds with overflow checks", "statement": "The frame decoder ends regularly or panics; in a build with overflow checks it panics exactly at a frame (not of the fill channel) whose channel was last seen with counter 0xffffff and that does not repeat that value, after having yielded a frame for every CADU before. (Refuted: the panic is visible.) Without Reed-Solomon the caller of the pipeline sees the panic; with Reed-Solomon it is lost in a background thread: every run delivers the processed frames before it and then ends as if the input had ended there, and the framing command reports success over the truncated output.", "quantifier": "every sequence of CADUs, every input of the pipeline, every schedule of the Reed-Solomon stage", "why_tests_cant": "Exactness ranges over all CADU sequences; the loss over all thread schedules.", "anchors": ["ccsds-lib/src/framing/mod.rs: missing_frames", "ccsds-lib/src/framing/pipeline/framing.rs: CaduDecoderIter::next", "ccsds-lib/src/framing/pipeline/reed_solomon.rs: do_reed_solomon", "ccsds-lib/src/framing/pipeline/builder.rs: Pipeline::start", "ccsds-cmd/src/frame.rs"]}
{"id": "C69", "title": "Output of the diff and info commands on files", "statement": "On two files of packets (not both empty) diff prints rows sorted by apid, sequence id and checksum, as many as its result states: exactly the packets that one side has more often than the other, except that, if the greatest key does not occur equally often on both sides, one row is missing, namely the smallest difference of that side that is not below anything on the other side. With --verbose it first prints exactly the apids with different numbers of packets, in increasing order, with both numbers. Files without packets and files that cannot be opened give an error and no output; a file compared with itself gives no rows and success. info prints the summary of C52 over the packets of the file. Neither command changes a file.", "quantifier": "all pairs of packet files, all option values", "why_tests_cant": "The row multiset and order must be right for every pair of packet collections.", "anchors": ["ccsds-cmd/src/diff.rs: diff", "ccsds-cmd/src/info.rs: summarize, info"]}
{"id": "C70", "title": "Decoding on after a temporary end of the stream", "statement": "If the packet iterator reaches an end of file that is only temporary (a growing file), a later pass goes on: when the file always ended between packets, the passes return together exactly the packets of the stream with their true offsets. (Refuted: the same when it ended inside a packet.) The bytes of a half-written packet are lost; the next pass returns what a decoder returns that starts in the middle of that packet, with offsets that fall short by the lost bytes.", "quantifier": "every packet stream, every sequence of temporary ends and every split of a packet", "why_tests_cant": "Ranges over all streams and all positions of temporary ends.", "anchors": ["ccsds-lib/src/spacepacket/mod.rs: PacketDecoder::next, Packet::read"]}
{"id": "C71", "title": "scan() and block() of a Synchronizer in any order", "statement": "For every sequence of scan() and block() calls on a Synchronizer over a stream, as long as the stream lasts: scan() finds the earliest occurrence of the marker that begins at or behind the current bit position and returns the position behind it, and Ok(None) if there is none; block() returns the next block-length bytes from the current bit position. The first block() that reaches behind the end returns what is left filled up with zero bits (position on a byte boundary) or UnexpectedEof (otherwise). After that or after Ok(None), scan() always answers Ok(None) and block() always fails with UnexpectedEof or returns a block of the right length. With any reader (errors, temporary ends) every call returns without panic.", "quantifier": "all markers, block lengths, streams, readers and call sequences", "why_tests_cant": "Ranges over all call sequences and all bit positions.", "anchors": ["ccsds-lib/src/framing/synchronizer.rs: Synchronizer::scan, Synchronizer::block"]}
{"id": "C72", "title": "Statistics of the found marker alignments", "statement": "pattern_hits counts, for each of the eight alignments, how often scan() found the marker at that alignment, and has no entry for an alignment that never occurred, as long as no count reaches 2^31; maintaining it changes no answer. (Refuted: this for streams of any length.) The counts are 32-bit: in a build with overflow checks the scan() that finds the 2^31st marker at one alignment panics, so that the iterator over a long enough aligned stream panics after 2^31-1 blocks; without the checks the count becomes negative and stays right modulo 2^32.", "quantifier": "all markers, readers, call sequences, with and without overflow checks", "why_tests_cant": "The overflow needs two billion markers; the count must be right for every sequence of calls.", "anchors": ["ccsds-lib/src/framing/synchronizer.rs: Synchronizer::scan, Synchronizer::pattern_hits, BlockIter::next"]}
{"id": "C73", "title": "Gap functions on every machine integer", "statement": "missing_packets on any two u16 values and missing_frames on any two u32 values, also out of the range of the counters: with overflow checks missing_packets panics exactly if last = 65535, or cur <= last and cur+16383 is below last or above 65535 (0 after any last >= 16383 excepted, which counts as regular), missing_frames exactly if cur < last and last > 0xfffffe; all other results are stated. Without the checks the same values result modulo the word size.", "quantifier": "all u16 resp. u32 argument pairs, with and without overflow checks", "why_tests_cant": "2^32 and 2^64 argument pairs.", "anchors": ["ccsds-lib/src/spacepacket/mod.rs: missing_packets", "ccsds-lib/src/framing/mod.rs: missing_frames"]}
{"id": "C74", "title": "Classification predicates", "statement": "Of is_first, is_last, is_cont and is_standalone exactly one is true of a decoded packet, and which is given by bits 16 and 17 of its header. Frame::decode keeps the bytes, with no missing count and no integrity; the frame is fill iff its version bits are 1 and its six vcid bits are all ones. MPDU::decode is None iff there are fewer than 2 bytes; otherwise header_offset is the 11-bit pointer, payload everything after 2 bytes, is_fill iff the pointer is 2046, has_header unless it is 2047 (so has_header is also true of idle data). Integrity::ok is true exactly of Ok and Corrected, the frames whose data the Reed-Solomon stage replaces.", "quantifier": "all byte strings, frames, codecs and configurations", "why_tests_cant": "Ranges over all inputs.", "anchors": ["ccsds-lib/src/spacepacket/mod.rs: Packet::is_first, is_last, is_cont, is_standalone", "ccsds-lib/src/framing/mod.rs: Frame::decode, Frame::is_fill, MPDU::decode, MPDU::is_fill, MPDU::has_header, MPDU::header_offset, MPDU::payload", "ccsds-lib/src/framing/reed_solomon.rs: Integrity::ok"]}
{"id": "C75", "title": "End-to-end recovery over a link that loses and damages frames", "statement": "Units (transfer frames of any mix of virtual channels, including fill) are sent in order; each one arrives, arrives damaged beyond repair, or is lost. The received stream holds the blocks of those that turn up behind sync markers, with any marker-free bits (noise, slipped bits, remains of lost units) in front of each marker and at the end. Then the pipeline's frames are exactly those of the units that turned up, in order; the frames flagged bad are exactly the damaged ones; the missing counts of each channel's frames are exactly the numbers of its units lost in between (nothing is reported before the first frame found); and the packets decoded from each channel are exactly, in order, those of which every byte travelled in a frame that arrived: a loss costs only the packets it touches, and no packet is ever stitched together across a gap or from damaged data.", "quantifier": "all sequences of units and fates, channel mixes, packets, block lengths, insert zones, trailers, gaps, bit alignments, codecs, Reed-Solomon options, read chunkings, thread counts, buffer sizes and thread interleavings", "why_tests_cant": "Ranges over all patterns of loss and damage combined with all streams, chunkings and schedules; a recorded pass exercises one.", "anchors": ["ccsds-lib/src/framing/pipeline/builder.rs: Pipeline::start", "ccsds-lib/src/framing/pipeline/synchronize.rs: synchronize", "ccsds-lib/src/framing/pipeline/framing.rs: frame_decoder, CaduDecoderIter::next", "ccsds-lib/src/framing/pipeline/packets.rs: packet_decoder", "ccsds-lib/src/framing/pipeline/reed_solomon.rs: reed_solomon"]}
{"id": "C76", "title": "Reed-Solomon options: defaults and which of them matter", "statement": "For any sequence of with_* calls the last call of each kind counts. The pipeline's Reed-Solomon stage does to every frame that is not fill exactly what DefaultReedSolomon does with the last virtual fill given (0 by default) and the last correction setting (on by default), check symbols removed. Number of threads, buffer size and detection never influence the frames delivered. At most 3 * b + 2 frames are in flight between source and consumer, b being the last buffer size given, 50 by default.", "quantifier": "all sequences of builder calls, codecs, blocks, readers, thread counts and schedules", "why_tests_cant": "Ranges over call sequences, inputs and schedules.", "anchors": ["ccsds-lib/src/framing/pipeline/reed_solomon.rs: RsOpts, do_reed_solomon", "ccsds-lib/src/framing/reed_solomon.rs: DefaultReedSolomon::new, with_*"]}
{"id": "C77", "title": "Failing writes and crash points", "statement": "Merger::merge on any writer hands over the beginning of what it writes when all writes succeed: all of it and the result of that run, or less than all and the error of the writer's first failing write; a write that is interrupted is repeated, one that is cut short is continued, one that accepts nothing is an error. The merge, filter and framing commands leave in the output file, after any pattern of failing writes, the complete output, ending as they would, or a proper beginning of it, reporting failure (framing: and no summary); no other file changes. On a device with room for n bytes the output holds exactly the first n, and success is reported iff there are no more. Stopping a run after any of its writes leaves the beginning of what it would have left. Short and interrupted writes change nothing.", "quantifier": "all inputs, options, writers (any sequence of accepted amounts and errors, any final behaviour), crash points", "why_tests_cant": "Ranges over all fault patterns and crash points of the device.", "anchors": ["ccsds-lib/src/spacepacket/merge.rs: Merger::merge", "ccsds-cmd/src/filter.rs: filter", "ccsds-cmd/src/frame.rs: frame_aos", "ccsds-cmd/src/main.rs: main"]}
{"id": "C78", "title": "Files with any contents", "statement": "Every file of bytes is read in exactly one of two ways: its packets are delivered and the end reported, or its packets are delivered and then the process panics, namely when a header announces a packet of more than 65536 bytes. Which one, and the packets, are functions of the bytes. Consequently, for a disk with any contents: info panics iff its input is of the second kind; diff iff its left file is, or the left file opens and the right one is; filter iff it may write and create the output, its arguments are numbers, there is some filter, and its input is another file than the output and of the second kind; merge iff it may write and create the output, the order name (if any) is known, all inputs open and one of them, other than the output, is of the second kind; the Python file functions iff the file is.", "quantifier": "all file contents, all disks, all arguments, all hash iteration orders", "why_tests_cant": "Ranges over all byte contents of all files; the absence of other panics is a statement about all of them.", "anchors": ["ccsds-lib/src/spacepacket/mod.rs: PacketReader/decode_packets", "ccsds-lib/src/spacepacket/merge.rs: Merger::merge", "ccsds-cmd/src/main.rs: main", "ccsds-cmd/src/filter.rs", "ccsds-cmd/src/diff.rs", "ccsds-cmd/src/info.rs", "ccsds-py/src/lib.rs"]}
{"id": "C79", "title": "Inputs that fail or panic while they are read", "statement": "Any input delivering bytes, at which reads may fail now and then, reads in exactly one of three ways: items and then the end, items and then a panic of the decoder, items and then read errors for ever. Each program on it: info and diff skip read errors and report on all packets, panic, or never return, respectively; filter by apids writes exactly the accepted packets before the first read error and succeeds, whatever comes after, and panics only if the decoder panicked before any read error, the accepted packets before that being in the output; filter by times writes the chosen groups of all packets, or of all packets but the last group if that could still grow, and then succeeds, panics or runs for ever; merge panics or runs for ever according to the first input in iteration order that does not end, and otherwise indexes the groups of all; an end that is reported while a group is open ends that group and reading goes on after it, an end at any other point is final for the group readers; the Python iterators deliver the packets, or the groups known to be complete, and then end, panic or hang. At whatever point the filter is stopped its output is a beginning of what it would have been. On files this is what the models of C49, C52, C51, C57 say.", "quantifier": "all scripts of reads and read errors, all packets, all options, all points of interruption", "why_tests_cant": "Non-termination, all error histories and all interruption points cannot be enumerated by tests.", "anchors": ["ccsds-cmd/src/filter.rs: filter, packets_with_times", "ccsds-cmd/src/info.rs: summarize", "ccsds-cmd/src/diff.rs: diff", "ccsds-lib/src/spacepacket/merge.rs: Merger::merge", "ccsds-lib/src/spacepacket/mod.rs: PacketGroupIter::next, decode_packets", "ccsds-py/src/lib.rs: decode_packets, decode_packet_groups"]}
{"id": "C80", "title": "Iterators that pause", "statement": "The library's adaptors accept any iterator, and an iterator may report an end and go on afterwards. packet_decoder and frame_decoder keep what they know across such pauses: they report an end when their source does, and all they have returned up to then is what they return on the items so far without pauses; an undecodable CADU is one more pause of frame_decoder, not its end; derandomize passes pauses on; if the source panics or does not return, so does the adaptor, after everything that could be made of the items before. collect_groups does not: a pause while a group is open splits the group and goes unreported, a pause at any other point is reported and final, and whatever the source delivers afterwards is lost.", "quantifier": "all iterators, all histories of items and pauses, all frames, CADUs and packets", "why_tests_cant": "Histories of pauses and items are unbounded, and the sources arbitrary.", "anchors": ["ccsds-lib/src/spacepacket/mod.rs: collect_groups, PacketGroupIter::next", "ccsds-lib/src/framing/packets.rs: FramedPacketIter::next", "ccsds-lib/src/framing/pipeline/framing.rs: frame_decoder, CaduDecoderIter::next", "ccsds-lib/src/framing/pipeline/mod.rs: derandomize", "ccsds-lib/src/framing/pipeline/packets.rs: packet_decoder"]}
{"id": "C81", "title": "The framing command as it runs, on any input", "statement": "On every reader, whatever its reads do, the synchronizer gives CADUs and errors and then an end or errors for ever, never a panic, and on a device that delivers bytes and then only fails all CADUs that lie completely within those bytes are returned first. The framing command, at whatever moment it is stopped, has written and counted exactly what belongs to a beginning of the sequence of decoded frames: the output only grows, the summary is printed exactly when it exits with success, and once it has exited nothing changes. It succeeds when the input ends or at the first unreadable CADU, is aborted when the frame decoder panics, and keeps running, with everything received in the output, when the input fails for ever. With Reed-Solomon the same holds under every schedule of the threads: frames arrive in order, no frame waits for later input, and the command does not end before all frames are in or while the input fails for ever. On files this is the command of C59. If the output names the input, the input is lost and success is reported.", "quantifier": "all readers (all sequences of reads that deliver, fail, or report an end), all command lines, all moments, all schedules of the Reed-Solomon threads, all codecs that keep their contract", "why_tests_cant": "Read failures, crash moments and thread schedules are unbounded and not reproducible.", "anchors": ["ccsds-cmd/src/main.rs: Commands::Framing", "ccsds-cmd/src/frame.rs: frame_aos", "ccsds-lib/src/framing/pipeline/builder.rs: Pipeline::start", "ccsds-lib/src/framing/pipeline/synchronize.rs: synchronize, BlockIter::next", "ccsds-lib/src/framing/synchronizer.rs: Synchronizer::scan, block", "ccsds-lib/src/framing/pipeline/reed_solomon.rs: reed_solomon"]}
{"id": "C82", "title": "Merging inputs that fail or change while they are read", "statement": "The merger reads every input twice: once from the start to find the groups, and again at the place of every group it writes. Whatever the inputs do in the first reading, if it ends, one group of each key (time, apid, sequence number) of those found is chosen, in time order and in the given order of apids at equal times, and the bytes that are found at their places in the second reading are written one after the other, up to the first place that cannot be sought or read, whose error is returned; no group is written in part because of its input. For files that hold the same bytes (or more behind them) in the second reading, which were read without errors or with errors between packets only, the output is the merged output of C18 and C19, or the first j groups of it and an error. For files with changed contents it is the bytes now at those places, and an unexpected end if a place is no longer there. An input that cannot be opened is reported before anything is read; an input that fails for ever makes the merge, and the merge command, hang with the output emptied; one that breaks the packet decoder aborts it. The command reports success exactly if everything was written. On readable files all this agrees with C18-C22 and C77. The expectation that success means the output consists of packets of the inputs is refuted: a read error inside a packet during the first reading shifts the places of everything behind it, and the merger writes other bytes and reports success.", "quantifier": "all sets of inputs and what their reads and seeks deliver (any sequence of data, errors, ends; any answer to any later seek), all merger settings, all hash-table orders, all writers, all command lines", "why_tests_cant": "Faults and concurrent changes at every read, seek and write, and the hash orders, are unbounded.", "anchors": ["ccsds-lib/src/spacepacket/merge.rs: Merger::merge", "ccsds-cmd/src/merge.rs: merge", "ccsds-cmd/src/main.rs: Commands::Merge"]}
{"id": "C83", "title": "Recordings that stop in the middle, and links that fail", "statement": "However a received stream of units (frames behind markers, some damaged or lost, as in C75) is cut, what is left are the first units and an unfinished rest: no marker, or a marker with less than a block behind it. A device that delivers such a stream and then fails for ever: the pipeline returns the frames of exactly the units that are there, with the damaged ones flagged and the right numbers of lost frames, and the packet decoder returns exactly the packets all bytes of which arrived; then the caller waits. With Reed-Solomon this holds at every time, under every schedule, for the units that are through; when the threads have nothing left to do nothing is held back, and the end is never reported. A file: the same frames and packets come first; if the file ends behind a marker that starts on a byte there may be one frame more, made of the part of the block that is there and zeros (before derandomization); with Reed-Solomon it is flagged, and yields no packets, if the decoder does not repair it. The expectation that only packets that were sent are returned is refuted without Reed-Solomon: a file that ends behind a packet header yields a packet whose missing bytes are made up, not marked in any way.", "quantifier": "all links, packets, frames, losses and damages, all places of the cut, all cuttings into reads, all readers that fail, all schedules, all codecs", "why_tests_cant": "Every place to cut every stream, and every schedule of the threads.", "anchors": ["ccsds-lib/src/framing/synchronizer.rs: Synchronizer::block, BlockIter", "ccsds-lib/src/framing/pipeline/builder.rs: Pipeline::start", "ccsds-lib/src/framing/packets.rs: FramedPacketIter", "ccsds-lib/src/framing/pipeline/reed_solomon.rs"]}
{"id": "C84", "title": "The JSON reports can be read back", "statement": "Every JSON value, written the way the reports are written, is read back by a JSON reader as the same value. The JSON report of `framing` reads as an object with the true counts of the frames the options choose (frames, bytes, missing, ok, corrected, uncorrectable, error, not performed) and, in \"vcids\", one object for each vcid that occurs, by increasing vcid, with the counts of its frames. The JSON report of `info` reads as an object with the file name, whatever characters it has, the counts and times of all packets, and one pair for each apid that occurs, by increasing apid, with the counts and times of its packets.", "quantifier": "all values, all frames and options, all packets, all file names", "why_tests_cant": "The file names (with quotes, control characters, any byte) and the sets of vcids, apids and counts are unbounded.", "anchors": ["ccsds-cmd/src/frame.rs: render_json_summary", "ccsds-cmd/src/info.rs: info, Info, Summary"]}
{"id": "C85", "title": "Standard output", "statement": "When a command writes a report to standard output, whatever pieces the formatter cuts it into and however the device takes them: a beginning of the report arrives; an error that is reported is the device's first; success means that at least all complete lines have arrived, and all of the text unless the device failed. A report that ends with a newline has arrived as a whole if success is reported. A device that only cuts writes short or interrupts them gets everything. The expectation that success means that the whole report has arrived is refuted: an unfinished last line that is shorter than the buffer may be lost in silence, and so `info --format json` on a full device can report success although what arrived is not JSON.", "quantifier": "all texts, all ways to cut them into writes, all devices (short writes, interruptions, failures at any place)", "why_tests_cant": "Every sequence of partial writes and errors, at every place of every text.", "anchors": ["ccsds-cmd/src/info.rs: info", "ccsds-cmd/src/frame.rs: framing", "ccsds-cmd/src/diff.rs"]}
{"id": "C86", "title": "The summary file of framing", "statement": "`framing --summary s` that reports success: s holds JSON that reads as the report on exactly the frames the options choose of those the pipeline returned, and every other file is as without --summary. All other ends: the framing itself failed and s is untouched; s cannot be created, or the device fails while it is written and s holds a proper beginning of the report; in both cases failure is reported, nothing is on standard output, and the output file is already complete; or s is complete and standard output is C85's. The expectation that s is refused when it is the input or the output file is refuted: the command succeeds and what the file held is gone.", "quantifier": "all inputs, options, files, all devices behind the summary file and standard output", "why_tests_cant": "Every input, every place where a write can fail, every alias of the file names.", "anchors": ["ccsds-cmd/src/frame.rs: framing, render_json_summary", "ccsds-cmd/src/main.rs: Commands::Framing"]}
{"id": "C87", "title": "The text reports", "statement": "The text report of `framing`: twelve lines, of which eight are a label and the total, then one line for each vcid; as long as the numbers fit the columns (10^4, 10^12) every number can be read at its fixed column. If success is reported all of it is on standard output. The text report of `diff`, unless the command panics: with --verbose a line for each apid with both counts and their difference; then the names of both files and one line for each difference, which shows on which side it is and the apid, sequence number and checksum; the exit status tells whether there are such lines. If neither file has a packet or one cannot be opened, the command fails and prints nothing. No field can be read as two numbers. The difference of the counts is right below 2^31 packets of an apid; refuted beyond: it may be shown as 0, or the command panics in a build that checks overflow. `diff` panics only for that reason, having printed the counts of the apids before that one and nothing else, or because standard output fails.", "quantifier": "all counts, all rows, all pairs of packet files, all file names without newlines, all devices behind standard output, both kinds of build", "why_tests_cant": "Counts, rows and files are unbounded; the wrong difference needs 2^31 packets.", "anchors": ["ccsds-cmd/src/frame.rs: write_text_summary", "ccsds-cmd/src/diff.rs: diff"]}
{"id": "C88", "title": "The info command as a process", "statement": "`info --format text` on a file of packets that reports success: all of eleven lines and one line for each apid is on standard output; they show the file name, the earliest and latest packet time, the time between them, the apids, the number of packets and of missing packets; each apid's line has the apid as its first word and its number of packets and of missing packets as its last two, and each value in its column as long as it fits. `--format json` with success: a beginning of a JSON text that reads as the report on the packets has arrived, all of it unless the device failed. The command panics exactly on a file with a packet that is too long (C05), fails without output if there is no file, and otherwise fails only if a write failed. The expectation that the file name is shown as it is is refuted: characters that HTML wants escaped (quotes, &, <, =, >, `) are shown escaped, and exactly these; different names are still shown differently.", "quantifier": "all files, file names, both formats, with and without time codes, all devices behind standard output, all ways to write times as text", "why_tests_cant": "Files, names and the behaviour of the device are unbounded.", "anchors": ["ccsds-cmd/src/info.rs: info, render_text, TEXT_TEMPLATE"]}
{"id": "C89", "title": "Merging with the library's time decoder", "statement": "A Merger with a TimecodeDecoder (a default format and formats registered for apids, the last registration of an apid counts) of CDS formats with days of at most 4 bytes and 0 or 2 bytes below the millisecond: merging files writes what C18 - C22 say, with the times these formats define for the packets. For all CDS decoders: the merge panics exactly if every file can be opened and one of them has a packet that is too long, or a packet group that begins with a first or standalone packet which is long enough for its format and whose format has days of more than 4 bytes or, in a build that checks overflow, 4 bytes below the millisecond that hold 4295 or more. A merge that panics has written nothing.", "quantifier": "all files, all decoders made by new and register, all orders, apid orders, limits; both kinds of build; all hash orders", "why_tests_cant": "Files, registrations and time fields are unbounded; the panics depend on rare widths and values.", "anchors": ["ccsds-lib/src/spacepacket/merge.rs: Merger::merge, Pointer", "ccsds-lib/src/spacepacket/timecode.rs: TimecodeDecoder::new, register, decode", "ccsds-lib/src/timecode.rs: decode_cds"]}
{"id": "C90", "title": "The config file of framing", "statement": "Config::read accepts exactly: an object with asm and rs each at most once (missing or null: none), and scid, type, length and pn each exactly once, or an array of the six in this order; asm is an array of bytes, scid a whole number below 2^16, type \"AOS\" (or {\"AOS\": null}), length, interleave and virtualfill whole numbers below 2^64, pn a truth value, rs an object with its two members each exactly once or an array of the two; and it yields these values. Members with other names and the order of members do not matter, so a misspelt \"rs\" goes unnoticed. `framing -c file` on an input that is a file runs with the config's values (C59), and fails before any file is touched if the file is missing or is no config. The expectation that the config the help text documents, with \"type\": \"aos\", is accepted is refuted: it is always refused. A config changes no other option of the command, and without one the command runs with the options given.", "quantifier": "all JSON values, all readings of text as JSON values, all files and options", "why_tests_cant": "JSON values are unbounded: any nesting, numbers, repeated and unknown members.", "anchors": ["ccsds-cmd/src/config.rs: RS, Config, Config::read", "ccsds-cmd/src/frame.rs: FrameType", "ccsds-cmd/src/main.rs: Commands::Framing"]}
{"id": "C91", "title": "Where framing reads from", "statement": "`framing` reads standard input if the input is \"-\" (even if there is a file of that name), else the file of that name if there is one, else from a connection to that address. The same bytes from any of these, in pieces of any sizes, make the command do the same at every moment (files written, counts, exit), with and without Reed-Solomon decoding. It reports failure exactly if a vcid list cannot be read, the input cannot be opened or connected to, the config file is missing or no config or has length 0 (without config: the length is 0), or the output cannot be created; then no file has been touched. The expectation that an input that can be opened but not read, such as a directory, is refused is refuted: the output is created and emptied and the command runs for ever.", "quantifier": "all names, all contents of standard input, files and connections in all divisions into reads, all options, all moments, all schedules of the Reed-Solomon threads", "why_tests_cant": "How a stream is divided into reads is unbounded, as are moments and schedules; never ending cannot be observed.", "anchors": ["ccsds-cmd/src/main.rs: InputReader::from_str, Read for InputReader, Commands::Framing"]}
{"id": "C92", "title": "Library types as JSON", "statement": "With the serde feature, a packet, a packet group or a frame written as a JSON value and read back is the same one; this holds for every value the types can hold, so for everything decoded from bytes or files. A summary written and read back has the same counts whatever the order of its tables, and adding any further packets to it gives what adding them to the original gives. Exactly the following is accepted: an object with each field once (a frame's integrity may be missing or null) and whatever else, or an array of all fields in order, with numbers in the range of their type and bytes as an array of numbers or as a string; the tables of a summary are objects whose keys are decimal numbers below 65536 without sign or leading zeros, and of several members with the same key the last one counts. The expectation that only values the library itself could have made are accepted is refuted: a group without packets is read, and then have_missing panics; a packet's header need not be that of its bytes.", "quantifier": "all packets, groups, frames and JSON values; all sequences of packets before and after a summary is written; all orders of hash tables", "why_tests_cant": "The field values, data lengths, histories and hash orders are unbounded.", "anchors": ["ccsds-lib/src/spacepacket/mod.rs: Packet, PrimaryHeader, PacketGroup", "ccsds-lib/src/spacepacket/summary.rs: Summary, ApidSummary", "ccsds-lib/src/framing/mod.rs: Frame, VCDUHeader", "ccsds-lib/src/framing/reed_solomon.rs: Integrity"]}
{"id": "C93", "title": "The decoding shown in the documentation", "statement": "The chain written out in the documentation of the framing module (synchronize, map_while(Result::ok), derandomize, frame_decoder, reed_solomon, filter on integrity) ends for every reader, also for one that fails for ever, where Pipeline does not return (C55): its blocks are those found before the first error or the end. On every byte stream, arriving in any pieces, for any options, number of threads and schedule, it delivers exactly the frames Pipeline delivers with the same options, in the same order, without the fill frames and those flagged uncorrectable or not corrected; so as long as no frame of a channel is damaged, nothing of it is missing. The expectation that its output can be given to packet_decoder is refuted: the dropped frame leaves no trace in the missing counts, so a packet begun before it is completed with the bytes behind it. A packet that was never sent is delivered, and complete packets behind it are lost; given all frames, the packet decoder does neither.", "quantifier": "all readers, byte streams and ways they arrive, options, codecs, thread counts and schedules; for the refutation all packets, cut in three at any place behind the header", "why_tests_cant": "The streams, codecs and schedules are unbounded; the one-line filter looks harmless and fails only when a damaged frame lies inside a packet.", "anchors": ["ccsds-lib/src/framing/mod.rs: module documentation", "ccsds-lib/src/framing/pipeline/synchronize.rs: synchronize", "ccsds-lib/src/framing/pipeline/reed_solomon.rs: reed_solomon", "ccsds-lib/src/framing/packets.rs: packet_decoder", "ccsds-lib/src/framing/reed_solomon.rs: Integrity::ok"]}
{"id": "C94", "title": "Running the tools on each other's outputs", "statement": "Two apid filters in a row leave the packets both accept; the same filter again, with or without time options, changes nothing. Filtering by time and then by apid writes the same as one command with all the options. The other order does not: if one apid is left and its first packet is segmented, the file is then one packet group, so the time options keep all of it or nothing, whatever the times of the later packets. Merging a merged file again with the same settings gives the same bytes, when no two different groups share time and apid order value. Merging in steps (some files first, the result with more files) gives what merging all at once gives if the packets of the first files are standalone; for segmented packets this is refuted: two groups of one apid written next to each other are read back as one group, the second is no longer seen to be a duplicate, and its packets are in the result twice.", "quantifier": "all well-formed files, file systems, options, mergers whose time depends only on the packet, path lists and hash orders", "why_tests_cant": "Each tool alone can be tested; what holds of all files is how one's output is regrouped by the next, which depends on which groups become neighbours.", "anchors": ["ccsds-cmd/src/filter.rs: filter", "ccsds-cmd/src/main.rs: Commands::Filter", "ccsds-lib/src/spacepacket/merge.rs: Merger::merge", "ccsds-lib/src/spacepacket/mod.rs: collect_groups"]}
{"id": "C95", "title": "Merging with times of both time scales", "statement": "Merger::merge with a TimecodeDecoder that has CDS formats (UTC) for some apids and CUC formats (TAI) for others: times are compared as instants, across scales, and the limits from and to are instants of UTC. When all files can be read and no time panics, the output is one group for each instant, apid and sequence id due (a file's group beginning with a first or standalone packet whose time decodes, lies at or after from and before to, and whose apid is requested), ordered by instant and then by the order value of the apid. Without ties the output is independent of hash order. The merge panics exactly if all files can be opened and one has a packet that is too long or such a group whose time panics, which CUC times never do. For times of one scale it is the merge of C89.", "quantifier": "every set of files, decoder with any formats, apid order, limits, hash iteration order, order of epochs across scales", "why_tests_cant": "All combinations of formats, files, limits and hash orders; the library's tests merge CDS packets only.", "anchors": ["ccsds-lib/src/spacepacket/merge.rs: Merger::merge, epoch_or_default, Ptr", "ccsds-lib/src/spacepacket/timecode.rs: TimecodeDecoder", "ccsds-lib/src/timecode.rs: decode_cds, decode_cuc"]}
{"id": "C96", "title": "Packets recorded to a file", "statement": "Every packet that packet_decoder (from any frames long enough) or decode_packets delivers is whole: its data is exactly one packet and its header is that of the data. Written to a file one after the other, packets of at most 65536 bytes are read back by decode_packets, in whatever pieces the file is read, as the same packets, with their positions in the file as offsets. A file cut off anywhere yields the packets completely in it. collect_groups forms the same groups of them; filtering the file by apid writes the recording of the filtered packets; merging such recordings writes one group per time, apid and sequence id of the groups of the packets, ordered as in C19. A packet of more than 65536 bytes, which frames can carry, is delivered and can be written, but reading the file panics at it.", "quantifier": "every frames, stream and list of decoded packets, cut position, way of reading, filter options, merge settings and hash order", "why_tests_cant": "All frame contents, all cut points, all lists of packets.", "anchors": ["ccsds-lib/src/framing/packets.rs: FramedPacketIter::next", "ccsds-lib/src/spacepacket/mod.rs: decode_packets, collect_groups, Packet", "ccsds-lib/src/spacepacket/merge.rs: Merger::merge", "ccsds-cmd/src/filter.rs: filter", "ccsds-py/src/lib.rs: py_decode_packets, decode_packet_groups"]}
{"id": "C97", "title": "Times in Python", "statement": "unix_seconds of a time code is within half a microsecond of its UTC time since 1970, and datetime within a microsecond, for all times from 1698 to 2242 (for CUC time codes the UTC time is the TAI time less the leap seconds hifitime knows). For a time of whole microseconds datetime is exactly that time; so it is for every eight bytes taken as a JPSS time code, before 1970 too, and for every CDS time code up to 2242 with milliseconds or microseconds. For CUC time codes it is within a microsecond of the seconds since 1958 and the fraction, less leap seconds. Datetimes of JPSS time codes are in the order of the time codes. The documentation's \"any nanoseconds present are silently dropped\" is False of the code: they are rounded, up to 2038 from 620 nanoseconds always to the next microsecond, and to 380 always down. After 2242 a CDS time code of whole microseconds can be shown a microsecond off, and after the year 9999 datetime raises.", "quantifier": "every time code buffer, both build modes, every table of leap seconds", "why_tests_cant": "2^64 time codes; the result is that of four roundings of doubles.", "anchors": ["ccsds-py/src/lib.rs: Timecode::unix_seconds, Timecode::datetime, decode_jpss_timecode", "ccsds-lib/src/timecode.rs: decode"]}
{"id": "C98", "title": "Python objects", "statement": "Packet(buf) raises ValueError exactly if buf has no complete packet at its beginning, with a message in which the number of bytes wanted and present can be read; else header, data and user_data are those of that packet, and user_data is len_minus1 + 1 bytes long. It never panics. Every packet of decode_packets, whatever is in the file, has user_data, and Packet(packet.data) is the same packet. str of a header, packet or group shows every header field, the data length, the apid and the number of packets so that they can be read back: packets with equal str have equal headers and lengths. The groups of decode_packet_groups have at least one packet, all of the group's apid and all from the file; complete() and have_missing() return without a panic what the sequence numbers and flags say. decode_timecode raises ValueError for a buffer that is too short and for formats it does not support, except that a CDS format of more than 4 bytes of days (or picoseconds from 4295 in an overflow-checked build) panics. False of the code: that complete and have_missing are bool attributes as ccsds.pyi declares (`if group.complete` is true for every group), and that str of a time code can be read by datetime.fromisoformat.", "quantifier": "every buffer, file contents, packet, group, time code format, both build modes", "why_tests_cant": "All buffers and all file contents; a str is checked by reading it back for every value of every field.", "anchors": ["ccsds-lib/src/spacepacket/mod.rs: Packet (py_new, header, data, user_data, __str__), PrimaryHeader::__str__, PacketGroup (apid, packets, __str__, complete, have_missing)", "ccsds-lib/src/error.rs: From<Error> for PyErr", "ccsds-py/src/lib.rs: decode_timecode, Timecode::__str__", "ccsds-py/ccsds.pyi: PacketGroup"]}
{"id": "C99", "title": "Reading bytes and pushing them back", "statement": "Bytes, the peek-and-push source under the synchronizer, on a reader that delivers bytes in pieces of any size: next and fill return the bytes of the stream in order, and offset() is the position; a byte that is pushed back right after it was taken is as if it had never been taken, for every later sequence of calls for which there are enough bytes. Several bytes pushed back in the order of the stream are right for a fill that asks for all of them, in reverse order for as many next. The documentation's \"the original order of the bytes is preserved when pushing bytes back\" is False of the code: after x, y and push([x, y]) next returns y, then x. A fill beyond the end of the stream returns Ok(false) with the rest of the stream in the buffer, whose other bytes it leaves alone, and offset() does not count them, if nothing is pushed back; otherwise it fails with UnexpectedEof, and the bytes of the stream behind those pushed back are lost. On every reader and after every history offset() is the number of bytes handed over less those given back, and underflows exactly if more were given back; no other call panics.", "quantifier": "every reader, every way its bytes come in pieces, every sequence of calls, every buffer contents", "why_tests_cant": "Histories of calls are unbounded; the unit tests push back one byte or only fill.", "anchors": ["ccsds-lib/src/framing/bytes.rs: Bytes::next, Bytes::fill, Bytes::push, Bytes::offset"]}
{"id": "C100", "title": "Reed-Solomon over any iterator", "statement": "reed_solomon(frames, opts) for any iterator of frames, be it endless, pausing (yielding again after None), panicking or blocking, under every schedule and with a caller that takes its time: what has been received is at every moment the processed first frames of the iterator, in order; the iterator is asked one frame at a time, only from the submit thread, and never again after its first None or a panic, so what it would return after a pause is lost. The end is reported only after the iterator ended or panicked, with all frames before delivered; a panic of the iterator cannot be told from its end. As long as the iterator's calls return there is no deadlock, and the number of steps taken is bounded by the number of frames received, so frames keep coming also from an endless iterator; on an iterator that ends every execution is finite and comes to the end. If the iterator blocks, everything it has returned gets delivered. Dropping the result does not stop the threads while the iterator goes on, contrary to what a user expects: on an endless iterator they never end. Pipeline::start with Reed-Solomon is this stage over the frames of the reader.", "quantifier": "every iterator, every per-frame function, buffer size, number of worker threads, every interleaving of the threads, every moment", "why_tests_cant": "Schedules and endless or failing iterators cannot be enumerated; the tests use a vector.", "anchors": ["ccsds-lib/src/framing/pipeline/reed_solomon.rs: reed_solomon, do_reed_solomon", "ccsds-lib/src/framing/pipeline/builder.rs: Pipeline::start"]}
{"id": "C101", "title": "Order that does not matter", "statement": "Merging depends on the set of paths and the set of apids given, not on their order or on how often each is given, through the library and through the merge command (when no two different groups tie on time and apid order value). When all packets are standalone the merge does not depend on how they are divided among the files, on their order there or on how often each is there; with segmented packets it does, because packets of one apid that follow one another in a file make one group there, sorted by its first packet's time (False of the code). diff does not depend on the order of the packets in the two files, and exchanging the files gives the same result with the columns of the table and of the counts exchanged. filter depends only on which apids its options stand for: not on whether they are written as numbers or ranges, their order, repetitions, or numbers too great for an apid. info's numbers of packets, times and durations, in total and by apid, do not depend on the order of the packets, and nothing in its report depends on how the apids are interleaved; the missing packets do depend on the order of the packets of one apid.", "quantifier": "all files and packets in them, all paths, all options, every reordering, repetition and redistribution, every iteration order of the hash tables", "why_tests_cant": "The laws relate the results on all pairs of inputs that are rearrangements of one another; tests fix a few inputs and compare with one stored result.", "anchors": ["ccsds-lib/src/spacepacket/merge.rs: Merger::merge, Merger::with_apids", "ccsds-cmd/src/merge.rs: merge", "ccsds-cmd/src/diff.rs: diff", "ccsds-cmd/src/filter.rs: filter", "ccsds-cmd/src/info.rs: summarize", "ccsds-cmd/src/main.rs: parse_number_ranges, Commands::Filter, Commands::Merge"]}
{"id": "C102", "title": "Several paths for one file", "statement": "On a file system where several paths lead to one file (hard links, symbolic links), merge, filter, diff and info depend on the files, not on the paths they are given by. filter and merge write exactly one file, the one the output path leads to; it then reads the same through all its paths, no other file changes and no path leads elsewhere; without --clobber an output path that leads to a file is refused and nothing changes. The content is that of C56 and C57 when the output is not the input's file. A file given to merge under several paths counts once. A file compared with itself under another path has no differences. With an input path that leads to no file, filter changes nothing and fails, diff and info have no result, and merge fails leaving the output empty. Naming as the output another path of the input's file is safe (False of the code: without any diagnosis filter, merge and framing empty the file before they read it, and report success).", "quantifier": "all file systems and the ways paths lead to files, all files, paths and options, every iteration order of the hash tables", "why_tests_cant": "The commands compare neither paths nor files; whether the result depends on the names must be shown for every way of naming. Tests use distinct plain files.", "anchors": ["ccsds-cmd/src/main.rs: Commands::Merge, Commands::Filter, Commands::Framing", "ccsds-cmd/src/merge.rs: merge", "ccsds-cmd/src/filter.rs: filter", "ccsds-cmd/src/diff.rs: diff", "ccsds-cmd/src/info.rs: info", "ccsds-cmd/src/frame.rs: frame_aos", "ccsds-lib/src/spacepacket/merge.rs: Merger::merge"]}
{"id": "C103", "title": "Memory of decoders that run for ever", "statement": "Decoders that run on an unending stream keep a bounded amount between calls, whatever they read. packet_decoder keeps for each channel fewer bytes than the longest packet (65542), only for channels frames came of (at most 64 behind frame_decoder, so less than 4 MiB in all), and the packets found with one frame, which are fewer bytes than the longest packet and the frame together. frame_decoder remembers one counter for each of at most 64 channels. The synchronizer never has more than a sync marker and one byte put back. Summary has figures, and the last header, of at most 2048 apids. The comment in packet_decoder that it keeps about one frame's worth of data is wrong: it can keep any number of frames, up to the length of a packet.", "quantifier": "all lists of frames and CADUs, all byte streams, sync markers and block lengths, all lists of packets, and all numbers of calls of next", "why_tests_cant": "A leak shows only after a run longer than any test; the bound is an invariant of all histories of gaps, corrupt frames and interleaved channels.", "anchors": ["ccsds-lib/src/framing/packets.rs: FramedPacketIter, VcidTracker", "ccsds-lib/src/framing/pipeline/packets.rs: packet_decoder", "ccsds-lib/src/framing/pipeline/framing.rs: frame_decoder", "ccsds-lib/src/framing/synchronizer.rs: Synchronizer, BlockIter", "ccsds-lib/src/framing/bytes.rs: Bytes", "ccsds-lib/src/spacepacket/summary.rs: Summary"]}
{"id": "C104", "title": "Recordings joined", "statement": "Writing recordings one after the other is as good as reading them one after the other, unless something is cut at the seam. Behind whole packets a stream reads as it would alone, at later offsets: items, errors and panics of decode_packets. So filter by apid writes, of joined files, what it writes of the first and then of the second; with time options too, and merge of the joined file is merge of both, if the last group of the first does not take in the first packet of the second; and info adds up the counts, takes the earliest and latest times, and counts of each apid the packets missing between the files on top of those missing in each. Streams of CADUs, the first ending with a block, give the blocks of both, whatever bit shift the second has; the frames of both, of which only the first of a channel in the second counts other missing frames; and the packets of both, if a break is seen at the seam in every channel that is in both. Otherwise not: a packet cut off at the end of a file is filled up with the beginning of the next, which is lost; a group going on across the seam is written or dropped as one, by the time of its first packet; a packet unfinished in the last frame is finished with the bytes of another recording when the frame counters happen to go on.", "quantifier": "all lists of packets, all bytes or streams following them with any errors and pauses, all files, options and paths of filter, merge and info, all CADU streams, sync markers and block lengths, all lists of frames of any channels", "why_tests_cant": "It relates three runs of the program on any two inputs; tests with chosen recordings do not reach the cases where state kept across the seam matters.", "anchors": ["ccsds-lib/src/spacepacket/mod.rs: decode_packets", "ccsds-lib/src/spacepacket/mod.rs: collect_groups", "ccsds-lib/src/spacepacket/merge.rs: Merger", "ccsds-lib/src/spacepacket/summary.rs: Summary", "ccsds-lib/src/framing/synchronizer.rs: Synchronizer", "ccsds-lib/src/framing/pipeline/framing.rs: frame_decoder", "ccsds-lib/src/framing/packets.rs: FramedPacketIter", "ccsds-cmd/src/filter.rs", "ccsds-cmd/src/info.rs"]}
{"id": "C105", "title": "Order of time codes", "statement": "Time codes of one format that are in range (a millisecond of the day below 86400000, a microsecond of the millisecond below 1000) compare as byte strings the way their times compare, and two are the same time only if they are the same code: for CDS with a 0 or 2 byte sub-millisecond field, for the codes the ccsds commands read from packets, for CUC without a multiplier, and for CUC with a multiplier of a nanosecond or more whose fine part stays below a second (with a smaller multiplier times are never out of order, though different codes may be one time). So sorting packets of one format by time, as merge does, or by the bytes of the code is the same. What is out of range is not refused: in a leap second, numbered 86400000 and up, codes are the same time as the first second of the next day or later than it; a CUC multiplier with which the fine part reaches a second puts the last code of a second at or behind the first of the next; and a 4 byte sub-millisecond field of 1 and more puts a code at or behind the next millisecond, and one of 4295 wraps in a release build.", "quantifier": "all pairs of codes of one format: all field widths, bytes, multipliers, builds with and without overflow checks, and all pairs of packets", "why_tests_cant": "A statement on all pairs of codes (2^128 of them for the default format) and all multipliers; the exceptions are single values in the ranges.", "anchors": ["ccsds-lib/src/timecode.rs: decode, decode_cds, decode_cuc", "ccsds-cmd/src/main.rs: CDS format", "ccsds-lib/src/spacepacket/merge.rs: Merger"]}
{"id": "C106", "title": "Damage to recorded packets", "statement": "Damaged bytes in a file of packets. If no length field is damaged, decode_packets still returns the same number of packets at the same offsets with the same lengths, each with the bytes that are now in its place: a packet in which no byte was damaged is returned unchanged, and so is a header in which none was. If no header is damaged, filter by apid writes the packets with the same numbers, with the bytes they have now and the same total length, and info without times reports the same. diff with the undamaged file reports no difference exactly if no apid, sequence id or checksum of a packet's data was changed by the damage (as collections), so damage to the version, the type and the flags of headers is never found by it. A damaged length field is believed: what follows is read from where the packet is now said to end, so the packets it then covers are returned as its data; if it is said to end behind the end of the file, it and all that follow are lost without an error; and a length of more than 65536 bytes panics.", "quantifier": "all files, all damage that keeps the length of the file, all positions and values of the length field, all options of filter", "why_tests_cant": "All files and all sets of damaged bytes; that nothing else changes is a statement on every position.", "anchors": ["ccsds-lib/src/spacepacket/mod.rs: decode_packets, PacketDecoder", "ccsds-cmd/src/filter.rs: filter", "ccsds-cmd/src/info.rs: summarize", "ccsds-cmd/src/diff.rs: diff"]}
{"id": "C107", "title": "False sync markers", "statement": "Bits that look like a sync marker. Inside blocks they do no harm while in sync: whatever is damaged in blocks whose markers are whole, each block is found at the place, with the location and distance it had, and with the bits that are there now, even if these are markers. In front of a run of blocks (noise, or what is left of blocks whose marker was damaged) the first one is taken for a marker: the block behind it is returned, made of whatever is there, and if it ends before the run no block of the run is lost, and otherwise only the first, unless another marker shows up between its end and the next block. The expectation that synchronization is regained sooner or later is refuted: if every block holds the marker at the same place (constant fill that is not randomized), a stream picked up within a block is cut at these for as long as it goes on, and none of the blocks sent is returned.", "quantifier": "all markers, block lengths, blocks, noise, alignments, chunkings, numbers of blocks and places of the false marker", "why_tests_cant": "All streams and all lengths of them; a false lock that is never left cannot be observed in a finite test.", "anchors": ["ccsds-lib/src/framing/synchronizer.rs: Synchronizer, synchronize", "ccsds-lib/src/framing/pipeline/synchronize.rs: synchronize"]}
{"id": "C108", "title": "Undetected damage in frames", "statement": "What packet decoding makes of frames damaged without the damage being noticed (no Reed-Solomon, or a wrong correction). While frames follow one another without loss, packets are cut by their own lengths only: first header pointers of the frames behind the first are not looked at. Payloads damaged anywhere but in the version, type and length of packets give each packet with what is now in its place, one with no damage as it was. A damaged length field makes the packet swallow those it then covers, although the pointers of the frames tell where these begin (shown as a refutation of the expectation that the next pointer resynchronizes). A damaged version or type costs the rest of what has been received up to the frame that shows it; the frames behind are decoded as if they were the first. No damage reaches beyond a lost frame.", "quantifier": "all sequences of packets, all frames of a channel carrying any part of their stream, all damage", "why_tests_cant": "which packets survive depends on where the damage lies relative to packet and frame boundaries; a test fixes a few of these", "anchors": ["ccsds-lib/src/framing/packets.rs:VcidTracker", "ccsds-lib/src/framing/packets.rs:FramedPacketIter"]}
