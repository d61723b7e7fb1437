# Formal model of bmflynn/ccsds-rs in Rocq (Coq 8.16.1)

## Layout (rocq/theories)

* `Base.v`      outcomes (value / panic), Rust `Result`, I/O error kinds, the relation
                "calling next() repeatedly yields exactly these items, then None".
* `S_*.v`       small independent specifications (bit strings, CCSDS bit layouts, LFSR,
                encoders for packets / frames / CADUs, ...), the whole vocabulary of the statements
                besides the modelled API itself. They import model files for their record types;
                a few (S_Options, S_SyncDirect, S_Framing, S_MergeLive, S_Pause) also name the
                API calls whose sequences a statement is about. None imports an `L_` or `P_` file.
* `M_*.v`       the model, one file per source file; every definition cites file and lines.
                No proofs in these files.
* `L_*.v`       lemmas and proofs.
* `P_*.v`       the property theorems (named after the property: `C12_...`), with the helper lemmas that
                only they need, followed by `Print Assumptions` and by `Example`s that show that the
                hypotheses are met by a concrete case.
* `W_*.v`       witnesses: `Example C12_name_at` applies the theorem `C12_name` to concrete, non-trivial data with
                every hypothesis proved, where the examples in the `P_` file do not do so already.

## Modelling conventions

* bytes are `N` (well-formedness `< 256` is an explicit hypothesis `bytes_ok`), lengths and
  offsets are `nat`, field values `N`, times `Z` nanoseconds.
* `&mut self` becomes a function returning the new state. `Result`/`Option` stay data. A panic is
  the explicit outcome `Panic`.
* Arithmetic that can overflow takes a build profile argument `ovf : bool` (`true` = overflow checks
  on, panics; `false` = wraps).
* Loops are structural recursion where possible, otherwise fuel with an explicit out-of-fuel value that
  the theorems exclude.
* `std::io::Read` is a script of events (data chunk, Interrupted, failure, transient or final end of
  file); `read_exact` is std's default implementation.
* `HashMap`s are association lists; iteration order, where observable, is a universally quantified permutation.
* The `rs2` crate (RS codec), `crc` and `hifitime` are external: the codec and the crc are universally
  quantified functions; hifitime durations/epochs are exact integers of nanoseconds.
* Threads and crossbeam channels of the RS stage are a labelled transition system, all interleavings.

## Plan per property

| id | model | proof |
|---|---|---|
| C01-C02 | M_Packet: PrimaryHeader::decode, Packet::decode | bit-field lemma (field = div/mod), case split |
| C03-C07 | M_Reader (read, read_exact), M_Packet (Packet::read, PacketDecoder::next) | read_exact on clean reader = split; induction on packets; coinductive-style non-termination by invariance |
| C08 | M_Packet.missing_packets | lia with mod |
| C09-C11 | M_Group | induction on packets |
| C12 | M_Summary | invariant over fold, refinement to filtered subsequences |
| C13-C17 | M_Timecode | arithmetic; exactness of the f32*f64 product as a bound on integers |
| C18-C22 | M_Merge | stable insertion sort, dedup as set by key; permutations quantified |
| C23-C29 | M_Bytes, M_Sync | abstraction to remaining bits; pattern/mask lemma at bit level; loop invariant |
| C30 | M_Pn | finite computation for table lifted by periodicity |
| C31-C35 | M_Frame | bit-field lemma; induction on CADUs |
| C36-C40 | M_FramePackets | invariant "cache = unparsed suffix of stream"; algebraic laws for gaps; tagged run for vcid isolation |
| C41-C44, C47 | M_ReedSolomon, codec a parameter | index arithmetic of (de)interleave |
| C45-C46 | M_RsPipeline transition system | invariant, measure, progress |
| C48, C55 | M_Pipeline | composition of the above |
| C49-C53 | M_Cli* | per command |
| C54 | M_Timecode | computation |
| C56-C60, C62 | M_Main: the commands as functions on a file system | composition with C18-C22, C49-C53 |
| C61 | M_RsPipeline | invariant + history of finished jobs |
| C63, C64 | M_Packet, M_Reader | token-level simulation of readers |
| C65 | M_Pipeline | composition |
| C66 | M_Packet, M_Sync, M_Frame, M_FramePackets, M_Group | simulation between the iterator on the input and on its continuation |
| C67 | M_RsPipeline | invariant of the channels' contents, case analysis of the enabled transitions |
| C68 | M_Frame, M_Pipeline, M_RsPipeline, M_Main | induction over the CADUs for the exact panic condition; the stage's theorems C45/C46 on the frames before the panic |
| C69 | M_Cli (diff_rows, diff_counts, diff_output), M_Main (diff_command, info_command) | induction over the merge of the two sorted key lists with the multiset difference as specification; C51, C52 |
| C70 | M_Packet over reader scripts with temporary ends | induction over the packets on the token view of the reader |
| C71 | M_Sync `scan`, `block` called in any order | induction over the calls with the position invariant of L_SyncRun |
| C72 | M_Sync `scan_hits`, `biter_next_hits` (the i32 counter, with and without overflow checks) | simulation of the model without counter; induction over the calls |
| C73 | M_Packet `missing_packets`, M_Frame `missing_frames` on all machine integers | case analysis, linear arithmetic |
| C74 | M_Packet, M_Frame, M_ReedSolomon predicates | from C02, C31, C35 and the field bounds |
| C75 | the whole pipeline over a lossy link (S_Loss) | markers with gaps by induction on the blocks; counters against an invariant (last counter seen + losses pending); packets by an invariant on the bytes in hand (L_Loss) |
| C76 | M_ReedSolomon option builders, M_RsPipeline | fold over the calls; determinism of complete executions; C67 |
| C77 | M_Write: merge, filter, framing on writers given as scripts of events | each function is writing a list of pieces that does not depend on the writer; induction over pieces and script |
| C78 | M_Main on disks with any bytes; S_AnyFile: the two kinds of files | strong induction on the length of the file gives one of the kinds; reading each kind by simulation; the conditions for a panic from C49, C52, C57, C69 on files of the first kind |
| C79 | M_Live: the loops of the commands, the lazy group iterator and std's iterator adaptors, one pull at a time, on readers that fail and on packets that panic the decoder; S_Live: the three ways in which an input reads (end, panic, errors for ever), complete groups | induction on the way the input reads, one lemma per adaptor; fuel = time, monotone; the loops on ordinary files are shown equal to the models on finished lists |
| C80 | M_Pause: frame_decoder, derandomize, packet_decoder over any iterator, pulled one item at a time; S_Pause: sittings (what is returned between two reported ends), CADUs cut at unreadable ones, groups of a pausing source | each adaptor is a run function with state over lists; induction on the sittings of the source |
| C81 | M_FrameLive: Pipeline::start and the framing command on any reader, the loop frame by frame; with Reed-Solomon as a relation over the states of M_RsPipeline's transition system, whose submit thread pulls from the live iterator; S_FrameLive: the CADUs completely inside a bit string | the synchronizer on a failing reader (measure on the unread view; twin reader that ends instead of failing), adaptors as in C79/C80, C53's invariant on prefixes, C45/C67 for the stage |
| C82 | M_MergeLive: Merger::merge and the merge command on inputs given as a first reader and an answer (error or reader) for every later seek; S_MergeLive: the choice of groups, their places, what is copied, contents in the second reading | C79's index results and C18-C20's sort and dedup lemmas restated for any groups found; induction over the pointers copied; read_exact on readers of given contents |
| C83 | M_Cut: Pipeline::start with Reed-Solomon on any reader (the rest is M_Pipeline, M_Pause, M_FrameLive); S_Cut: links, what is heard of them, unfinished rests, what a receiver is to get | cutting lemma by induction over the units on the air (no marker inside gap ++ part of a marker); C75's lemmas for the frames of a prefix of the units; C28/C55's run lemmas for the synchronizer; C66, C67, C80, C81 for the stages on live sources; the padded unit of a cut file taken as if it had been sent for the refutation |
| C84 | M_Json: render_json_summary and serde_json's pretty writer (strings with escapes, numbers, arrays, objects); S_Json: a reader of JSON written from the grammar; S_Report: what the reports are to say | induction over values with the rest of the text as a parameter; C46/C47-style folds for the counts |
| C85 | M_Stdout: Rust's LineWriter of 1024 bytes around the descriptor, its flush at exit whose error is dropped; S_Stdout: complete lines and the rest | invariant: what arrived followed by the buffer is the text so far, and the buffer holds no complete line; device events as in C77 |
| C86 | M_Stdout: framing_report (the framing command of M_Main, then File::create and the write of the summary, then the text on standard output) | C84 and C77's write lemmas; concrete aliasing runs for the refutation |
| C87 | M_Text: write_text_summary and diff's println! lines with their format specs, the `as i32` difference; S_Text: reading lines, words and columns | decimal digits and padding lemmas; lines_of over concatenated lines; C69 for what diff finds and C85 for what arrives |
| C88 | M_Info: render_text (the template's lines, lpad, HTML escapes), info as a process over M_Main's info_command and M_Stdout; S_Info: labelled lines, comma lists, columns | C69 for what the summary says, C84 and C85; the escape is a prefix code; words of a line split at blanks |
| C89 | M_MergeTd: Merger::merge with a decoder that may panic (TimecodeDecoder of M_Timecode), the reads before any write; S_MergeTd: the format for an apid, its time, when it panics | induction over the files and their groups; equality with M_Merge's merge when no time panics, then C18 - C22 |
| C90 | M_Config: the derived Deserialize of Config, RS, FrameType over JSON values, member by member; framing from the name of a config file. S_Config: which values are a config. The reading of text as JSON value is a parameter | a relation for one field over the members, for all six fields at once by induction; permutations; C59 for what is used |
| C91 | M_Input: InputReader::from_str over a world of standard input, files and connections, framing from its arguments on (with M_Config); S_Input: sources | simulation between readers that deliver the same tokens, through every stage of the pipeline; C81 and C90 |
| C92 | M_Serde: derive(Serialize, Deserialize) of the library types over JSON values (the jval of M_Config); S_Serde: which values are a packet, a group, a frame, a summary | each reader characterised; round trips; invariant of the tables of a summary, relation between summaries that differ in the order of tables |
| C93 | M_Doc: the chain of the module documentation, map_while and the filter closure, over the stages of M_Pipeline | iff with the pipeline's output (S_Cli's `kept`) via C27; termination by the measure of C28, which every block decreases whatever the reader's end; the stitched packet from the reference semantics of C36 |
| C94 | M_Main's filter_command and M_Merge's merge, run one after the other | C56 twice, with kept lists composed; what is written is shown to be a well-formed file and its grouping to be the joining of neighbouring groups of one apid (L_Compose `regroup`), whose first packets are those of groups written; merges by uniqueness of the strictly sorted selection |
| C95 | M_MergeAny: Merger::merge with a TimecodeDecoder of CDS (UTC) and CUC (TAI) formats; the order of hifitime's epochs across scales is an arbitrary function `instant` from epochs to integers; S_MergeAny: a packet's time stamp, the UTC limits, the groups due and their keys | equality with M_Merge's merge with the instants as times and limits beyond them, then C19, C22; panics by comparison with M_MergeTd |
| C96 | packets of packet_decoder (M_FramePackets) and decode_packets (M_Packet), their data written one after the other; the readers, M_Main's filter and Python functions and M_Merge's merge on that file; S_Record: whole packets, the recording, packets with their positions | C38 and C06 give whole packets, hence wire packets; C03, C04, C78 for reading; C10, C56, C60, C19 with packets compared up to their positions (L_Compose) |
| C97 | M_PyTime: hifitime's conversion to f64 seconds and CPython's datetime.fromtimestamp, in Flocq's binary64; leap seconds a parameter; S_PyTime: Unix time of a UTC time, time ranges | error bounds of each rounding in the reals (L_PyTime: Flocq's error_le_half_ulp and Sterbenz for the fraction), summed to less than a microsecond; a whole microsecond so near is the microsecond |
| C98 | M_Py: constructor, getters and str of the Python classes, conversion of errors to exceptions; pyo3 external (a panic is PanicException, a method is an attribute whose truth value is True); hifitime's date text and CPython's fromisoformat parameters; S_Py: what a message or str says, as words and numbers | C02, C11, C13-C16, C60, C78 carried over to Python's view; texts are joins of words (words_join), read back by S_Text |
| C99 | M_Bytes with fill into a buffer of any contents; S_Bytes: sequences of calls, reading bytes in sequence, bytes handed over and given back | invariant: position, bytes pushed back, rest of the stream; read_exact on tokens (L_Sync); the counter by induction over the history |
| C100 | M_RsSource: the stage of M_RsPipeline whose submit thread calls the iterator; S_RsSource: an iterator stops (the rest is S_Live, S_Pause) | simulation in both directions between executions over the iterator and over the list of what it returned; then C45, C46, C67; C81's and C83's shortcut for the pipeline is shown to be this system |
| C101 | M_Main's commands and M_Merge's merge on two arrangements of the same input; S_Order: same members, interleavings, a table with its columns exchanged | the result is unique given the set of eligible groups (merge), the sorted keys (diff), the sets of numbers (filter), C69's description (info); refutations on concrete files |
| C102 | M_Links: places behind paths, merge, filter, diff, info and the input of framing on them; S_Links: same file, only that file written | filter, diff and info are M_Main's commands on the places (simulation); merge from C19 and the uniqueness of its result, with inputs that are the output taken as empty; framing from C81 |
| C103 | M_FramePackets, M_Frame, M_Sync/M_Bytes, M_Summary: the states between calls of next; S_Memory: states reached by any number of calls, the bytes they keep | invariants of next: a cache starts with the header of a packet it is too short for; keys of association lists without duplicates and in the range of the fields they are masked from |
| C104 | M_Packet, M_Group, M_Main, M_Merge, M_Cli, M_Sync, M_Frame, M_FramePackets run on two inputs and on their concatenation; S_Join: what is expected of the concatenation | packets: simulation of the reader behind the whole packets, shifted by their length; groups: the groups of the first are complete when its last one is apart; info: state of the summary after the first part; blocks: the sync_run relation (S_Sync) splits where a block ends and shifts by whole bytes; frames: relation `decoded` splits; packets of frames: the trackers of channels after their first frame in the second part agree. Refutations for each kind of seam in P_JoinNot |
| C105 | M_Timecode, M_Merge.cds_time on two codes; S_TimeOrder.bytes_before: the order of byte strings | codes of one length compare as their big endian numbers; these are mixed radix numbers of the fields (lemma `be_three`), and the values of C13 and C15 are monotone in them when each field is below its radix. Refutations where it is not |
| C106 | M_Packet (pdec), M_Main.filter_command, info_command on a file and on a damaged copy; S_Damage: positions of packets, which bytes are kept | induction over the packets: the length field is the same, so the damaged copy splits at the same places (C78's characterisation of files by their packets); commands by C56 and by induction on the summary. A damaged length: the file splits before it and is read on where it says |
| C107 | M_Sync (synchronize, biter_next) by its specification sync_run (C23); S_FalseSync: blocks that hold the marker, what lies between the inner markers | the run over blocks sent back to back computed with all locations, for any position and previous location; the false lock is the same stream cut differently (C25) |
| C108 | M_FramePackets (packet_decoder, fpiter_next) by its specification over frames of one channel (C36, C95); S_FrameDamage: frames with other payloads, the stream as received, cuts kept | carving a stream split at any frame boundary equals carving the pieces one after the other; with S_Damage the damaged stream is the stream of damaged packets, cut alike, carried by the damaged frames |

Properties that the code violates (the text in `properties.jsonl` says "False of the code") get a
`..._refuted` theorem with a concrete witness plus a theorem giving the exact behaviour.
None of the properties is out of reach of a model.

## Trusted base

* Coq's kernel (8.16.1, `vm_compute` included), and the reading of the specifications `S_*.v` and of the
  theorem statements.
* `Print Assumptions` says "Closed under the global context" for every theorem of the manifest but those of C97: no axiom,
  neither ours nor the standard library's, is used. All theorems of C97 speak of or go through real numbers and use the four axioms of the standard library's Reals:
  `ClassicalDedekindReals.sig_not_dec`, `ClassicalDedekindReals.sig_forall_dec`,
  `FunctionalExtensionality.functional_extensionality_dep` and `Classical_Prop.classic`. Flocq adds none. (`vcheck` lists further
  constants, of `Coq.ssr.ssrunder` for instance, as axioms of loaded libraries: module-type fields that `Lia`'s `zify` pulls in;
  no theorem depends on them.)
* That the model is the code. It was written by reading; nothing was extracted or run. Every definition cites
  file and lines. Where it departs from the code its comment says so; the departures are collected below.

### What stands for external code

| external | in the model |
|---|---|
| `rs2` Reed-Solomon codec | an arbitrary pair of functions (`has_errors`, `correct_message`); theorems that need it assume `codec_ok` (when a 255-byte word is not uncorrectable, there is a message of 223..255 bytes), and C48 what the code word of the transmitted frame is corrected to |
| `crc` | an arbitrary function in the diff command |
| `hifitime` | epochs and durations are exact integers of nanoseconds, one time scale, Gregorian calendar as in `S_*`; leap seconds and the conversion to f64 seconds (`to_utc_seconds`, an f64) are parameters (C97 has the conversion to f64 as in hifitime's `Duration::to_seconds`); `Duration::compose` is taken as exact (releases of hifitime that compose through f64 would round far-away times below a microsecond) |
| f32 / f64 arithmetic of the crate itself | Coq's `SpecFloat` (IEEE 754, round to nearest even) |
| `rayon::ThreadPool`, `crossbeam::channel`, `std::thread` | rules of the transition system `M_RsPipeline.step`; the pool runs every spawned job, also after the pool handle is dropped; scheduling is arbitrary |
| `HashMap` iteration order | universally quantified permutation |
| `std::io::{Read, BufReader, Write}` | reader = script of events; `read_exact` the std default; writer = script of events, `write_all` the std default (C77, M_Write); in M_Merge, M_Cli, M_Main all writes succeed |
| `clap`, `regex`, `tracing` | not modelled; the command functions start from parsed options |
| `serde`, `serde_json` | M_Json: the writing of the reports; M_Config, M_Serde: what derive(Serialize, Deserialize) makes of JSON values; the reading of JSON text is a parameter |
| allocator, address space | unbounded (number ranges of up to 2^32 values in arguments, `length + 32*interleave`, more than 2^31 entries in `with_apid_order`): `usize` is `nat`, no allocation failure. Field arithmetic on u8/u16/u32/u64 is exact in width |
| panics | unwind (no `panic = "abort"`): a panic in a thread ends that thread only |

## Modelled / not modelled

Modelled: ccsds-lib/src/spacepacket/mod.rs (M_Packet, M_Group), spacepacket/summary.rs (M_Summary),
spacepacket/merge.rs (M_Merge, M_MergeTd, M_MergeAny), timecode.rs and spacepacket/timecode.rs (M_Timecode), framing/bytes.rs (M_Bytes),
framing/synchronizer.rs and pipeline/synchronize.rs (M_Sync), framing/pn.rs (M_Pn), framing/mod.rs and
pipeline/framing.rs (M_Frame), framing/packets.rs and pipeline/packets.rs (M_FramePackets), framing/reed_solomon.rs
(M_ReedSolomon), pipeline/reed_solomon.rs (M_RsPipeline, M_RsSource), pipeline/builder.rs (M_Pipeline), the chain in the documentation of framing/mod.rs (M_Doc), the five commands of
ccsds-cmd (M_Cli, M_Main, M_Links, M_Write, M_Live, M_FrameLive, M_MergeLive; their reports M_Json, M_Text, M_Stdout, M_Info; the config file M_Config, the input M_Input) and the file and timecode functions of ccsds-py (M_Timecode, M_Main, M_PyTime) and its classes (M_Py).

Not modelled:

* `sync_on_thread` (unused in the crate), `ocf.rs` (commented out in full).
* handlebars' own parser (M_Text and M_Info have its result for the two templates), hifitime's Serialize of times and durations (functions the C84 and C88 theorems quantify over), log output, the error texts.
* the buffers of BufReader (C91 has standard input and TCP as readers); read errors on files that could be opened (C62 treats them for the packet iterator and C79 for info, filter, diff, merge's first reading and Python, C81 for framing, C82 for merge as a whole; write errors are C77); framing with Reed-Solomon and output = input
  (without: C81, C102).
* pyo3's conversions of arguments; the epoch attribute of `Timecode` (its unix_seconds and datetime are C97, str C98).
* `framing --output -`: documented as standard output, the code creates a file of that name (which is what the model does with any name).
* how hifitime orders epochs of different time scales (leap seconds): C95 has it as a parameter, for CUC and CDS formats in
  one merge; C89 treats decoders of CDS formats; elsewhere `mg_time` is a total function.

## Findings (what a user would expect and the code does not do)

Each has a theorem with the exact behaviour, and where the expectation is a single statement also its refutation.

| property | behaviour |
|---|---|
| C05 | a legal packet of 65537..65542 bytes panics the stream reader |
| C07, C55 | `filter_map(Result::ok)` / `Pipeline::start` never return on a reader that keeps failing |
| C10 | sequence flags do not end a group; two complete groups of one apid become one |
| C14 | picosecond CDS field is multiplied instead of divided (and overflows u32) |
| C20, C58 | `with_apid_order` orders the listed apids in reverse and behind the unlisted |
| C21 | incomplete groups are merged |
| C22 | merger output depends on hash order for equal time and order value |
| C27 | a truncated last block is zero padded and yielded (aligned) or an error item (unaligned) |
| C28 (`C28_ex_empty`) | an empty sync marker yields zero-byte progress for ever |
| C29 | `Interrupted` inside a marker loses a block |
| C32, C68 | frame counter roll-over: undercount by one, and panic / 4294967295 for the regular successor of 0xffffff |
| C33 | the version 1 decoder takes master and virtual channel count as one 16-bit counter |
| C34 | first undecodable CADU ends the frame iterator |
| C36 | `packet_decoder` also reassembles the fill channel 63; pointer 2046 is not told from idle data |
| C43, C44 | `with_detection` has no effect; data returned for uncorrectable blocks |
| C47, C48 | header is decoded before the Reed-Solomon correction, and not updated |
| C49 | the default upper end of time filters is in the year 2100 (filter) / 2200 (merge) |
| C51, C69 | `ccsds diff` swallows the row of the greatest key |
| C54 | Python `decode_eos_timecode` fails on every input |
| C56 | numbers above 65535 in `--include`/`--exclude` are dropped silently |
| C57 | `--clobber` empties the output before it fails; output = input destroys the input |
| C77 | a failed write leaves the beginning of the output in place |
| C79 | `ccsds info`, `diff`, `merge` and `filter --before/--after` on a directory, or on a device that fails, never return; `filter --include` on it reports success |
| C59 | config's sync marker ignored, interleave modulo 256 |
| C61 | dropping the RS iterator reads the whole input before the threads end |
| C73 | both gap functions panic (overflow checks) on some out-of-range arguments |
| C74 | `MPDU::has_header` is true of idle data |
| C72 | the 2^31st marker at one alignment panics (overflow checks) or makes the count negative; C23-C29, C34 are about the synchronizer without this counter, C72 carries them over below the limit |
| C71 | after the end block() may still return one block of padding |
| C62, C63, C70 | read errors: silent end or silent skip, later offsets too small |
| C80 | a source that pauses: `collect_groups` loses everything after a pause that follows a standalone packet, and splits a group at a pause; `frame_decoder` takes an undecodable CADU for a pause |
| C81 | framing an input that fails for ever never ends (C55), though everything received is in the output; with output = input the input is lost and success is reported |
| C82 | a read error inside a packet while the merger indexes a file shifts all later places: it copies other bytes and reports success; files changed between the two readings are copied as they are now; an input that fails for ever hangs the merge after the output was emptied |
| C83 | a recording that ends inside a frame yields, without Reed-Solomon, a packet whose missing bytes are zeros (or the pseudo-random sequence), though it was never sent and nothing marks it |
| C85 | `info --format json` does not flush standard output: its last line, when the device is full, is lost and success is reported, so the JSON may be cut |
| C86 | `--summary` may name the input or the output file: it is overwritten and success is reported; a summary that cannot be written makes the command fail after the output is complete, with nothing on standard output |
| C87 | diff's difference column is an i32: wrong (0 for 2^32 against 0) or a panic from 2^31 packets of an apid; diff panics when standard output fails; columns of the framing text run together from 10^12 |
| C88 | `info`'s text report shows a file name with =, &, <, >, quotes or ` in HTML escapes (a=b.dat as a&#x3D;b.dat) |
| C89 | merging with a CDS decoder whose days field is over 4 bytes (or picoseconds from 4295 in an overflow-checked build) panics as soon as one packet is long enough; nothing is written |
| C90 | the config documented by `framing --help` ("type": "aos") is refused, only "AOS" is read; a misspelt "rs" is ignored, and then no Reed-Solomon decoding happens |
| C91 | `framing` on a directory (or any input that opens and cannot be read) empties the output and never ends; so do info and diff (C79); a misspelt input file is taken for a network address |
| C92 | a group without packets can be read with serde, and have_missing on it panics (the library never makes one); headers read are not checked against the bytes |
| C93 | the documented decoding filters out damaged frames after the loss counts are made: packet_decoder then joins the pieces on both sides, delivering packets that were never sent and losing complete ones |
| C94 | filtering by apid and then by time can keep or drop a whole file by the time of its first packet; merging a merged file with one that overlaps it can write segmented packets twice |
| C96 | packets of 65537 to 65542 bytes come out of frames and can be written to a file, but every reader of that file panics at them |
| C97 | datetime rounds nanoseconds to the nearest microsecond instead of dropping them as documented; after 2242 it can be a microsecond off; after 9999 it raises |
| C98 | ccsds.pyi declares complete and have_missing as bool attributes, but they are methods: `if group.complete` is always true; str of a Timecode ("... UTC") cannot be loaded by datetime.fromisoformat, as a comment says |
| C99 | bytes pushed back to `Bytes` come out of `next` in reverse order (the documentation says in the original order); a `fill` that fails after a push loses bytes |
| C100 | `reed_solomon` loses what its iterator returns after a pause, and turns a panic of its iterator into an ordinary end; on an endless iterator its threads run for ever after the result was dropped |
| C101 | dividing segmented packets differently among files changes their order in the merged file |
| C102 | filter, merge and framing onto another path of their input (with --clobber; framing always) empty it and report success |
| C103 | the comment in packets.rs:63 says that up to about one frame of data is in the cache: it can be any number of frames, up to 65541 bytes for each channel |
| C104 | joining recordings (cat): a packet cut off at the end of one swallows the beginning of the next (C104_cut_packet_refuted); segmented packets of one apid on both sides of the seam become one group, so a time filter keeps or drops both (C104_group_across_refuted); an unfinished packet is finished with another recording's bytes if the frame counters happen to go on (C104_packet_across_refuted) |
| C105 | a CDS code of a leap second (milliseconds 86400000 to 86400999, which the standard uses) is decoded as the first second of the next day: packets of the two seconds are mixed up by merge (C105_leap_second_refuted); the same for a CUC multiplier that is too large (C105_cuc_wide_refuted) and for 4 byte sub-milliseconds of 1 and more (C105_cds4_milli_refuted, C105_cds4_refuted): these are taken for milliseconds (C14) |
| C106 | packet files have no synchronization: one damaged bit of a length field makes all that follows misread or lost, silently if the packet is said to be longer than the file (C106_length, C106_swallowed_refuted); diff compares no other header fields than apid and sequence id, so a changed version, type, secondary header flag or sequence flag is not reported (C106_diff_blind_refuted) |
| C107 | there is no check that markers follow one another at the block length (no flywheel): a stream whose blocks hold the marker at one place, picked up within a block, is never synchronized (C107_locked_out_refuted) |
| C108 | a damaged packet length is not noticed although the first header pointers of the following frames contradict it; they are looked at only after a loss (C108_swallowed_refuted) |
