# Formal model of canadensis in Rocq (Coq 8.16.1)

## Layout

* `properties.jsonl` – the English properties C01…
* `rocq/theories/Base.v` – integers, bytes and list helpers shared by all models.
* `rocq/theories/<Area>Model.v` – the model of the code, no proofs. Every definition cites the file and
  lines it models. A function that mutates through `&mut` returns the new value. `Result`/`Option` stay data.
  A panic is an explicit value (`Panic`/`None` where the comment says so), never a default.
* `rocq/theories/<Area>Spec.v` – small independent vocabulary used in theorem statements, where the statement
  needs one.
* `rocq/theories/<Area>Proofs.v` – lemmas.
* `rocq/theories/<Area>Props.v` – only the property theorems (`exact lemma`), `Print Assumptions`, and an
  `Example` beside each theorem that a non-trivial case meets its hypotheses.
* `MANIFEST.json` – property → theorem names and status.
* `seeded/LOG.jsonl` – wrong programs the theorems were tested against.

Naming: `Cxx_…` is a theorem for property Cxx; `…_partial` proves part of the property (comment says what is
missing); `…_refuted` shows, with a concrete witness, that the code violates the full property. When a property
is refuted, the manifest lists both the refutation and the strongest positive theorem proved.

## Conventions of the model

* Unsigned machine integers are `N` (or `nat` for lengths and indices). Wrap-around, truncation and saturation are
  written out wherever the code relies on them (`mod 2^32` etc.).
* Bytes are `N`; theorems about encoders assume `Forall (fun b => b < 256)`, which every `u8` satisfies.
* Allocation failure (`fallible_collections`) is modelled only where the property speaks about it (bounded queues,
  bounded tables); elsewhere allocation succeeds. Each model's comment says so.
* Time: `Microseconds32` is a `u32` tick counter with the wrap-around comparison of the third-party crate `fugit`
  (assumed, see Trusted base).

## Plan per property

| id | what is modelled | proof |
|---|---|---|
| C01 | `CrcTracker`, `Crc32c` | invariant over the stream: state = f(prefix); then split of the last four bytes |
| C02 | `Crc16CcittFalse`, `Crc32c` | linearity and bijectivity of the bit step, lifted to any prefix/suffix |
| C03 | `escape_from_iter`, `Unescaper` | refuted by witness (254 non-zero bytes then zero); round trip proved for all inputs without that pattern |
| C04 | same + `escaped_size` | invariant over the escape loop |
| C05 | `SerialTransmitter::push/flush` over a bounded byte queue | case analysis; induction on driver answers |
| C06 | transmitter + header + receiver | composition of header and COBS round trips through the receiver's state machine |
| C07 | receiver state machine | refuted by witness (truncated header); positive theorem for the other receiver states |
| C08 | receiver state machine with explicit panic | invariant on header collector length |
| C09, C10 | receiver + subscriptions + sessions | invariant over histories |
| C11, C12 | `canadensis_header` | arithmetic on fields, CRC residue |
| C13, C14 | `make_can_id`, `parse_can_id` | mask/shift arithmetic |
| C15, C16 | `Breakdown`, `calculate_frame_stats`, `push_inner` | induction on payload |
| C17 | `push_inner` over a bounded queue | case analysis |
| C18 | transmitter frames into receiver subscription | induction over frames with CRC residue |
| C19 | receiver as a function of frame lists | simulation: projection to one session commutes with steps |
| C20–C24 | receiver | invariants over histories; refutations for anonymous truncation and the size underflow |
| C25 | `ArrayQueue` | refinement to a stable sorted list |
| C26 | `flush_single_queue` with an arbitrary driver oracle | induction; refuted for driver errors |
| C27 | `Deduplicator` | invariant over histories |
| C28 | `subject_filter` … with `Filter::accepts` and `parse_can_id` | bit arithmetic |
| C29 | `canadensis_filter_config` | induction on merge rounds; refuted for inputs containing invalid filters |
| C30–C37 | UDP breakdown, receiver sessions, addresses | induction over datagrams; refutations by witness |
| C38–C41 | write and read cursors, `BitArray` | refinement to bit lists |
| C42–C44 | `Operator` tree | structural induction against the denoted set |
| C61, C62 | `cmp`, `validate_numerically` | lexicographic order on sorted lists; refuted for padded sets |
| C45–C49 | node tables, publishers, requesters, handler chain, tokens | induction over operation histories |
| C63 | `CoreNode::receive` loop | induction over receiver answers |
| C64 | subscriptions of requesters | invariant; refuted after `stop_sending_requests` |
| C65 | `AnonymousPublisher` | induction over sends |
| C50 | `BasicNode` port list, with the encoding of `uavcan.node.port.List` | refinement to sets of ports; refuted for ports used behind its back |
| C73, C74 | `BasicNode::run_per_second_tasks`, `MinimalNode` | invariant over histories, encoding of the data types by C66–C68 |
| C75 | `BasicNode::receive`, `NodeInfoHandler`, `GetInfoService` | computation, encoding by C66–C68 |
| C76 | `PortListService` | as C50; refuted above 255 subjects |
| C77 | `CoreNode::set_node_id` | case analysis |
| C51 | `RegisterHandler`, `RegisterServerService`, basic registers, blocks of the derive macro | case analysis, induction over histories, encoding by C66–C69 |
| C78 | the same, on any payload | decoding computed on the bytes of a request; refuted by a request of 5 bytes |
| C79 | register list requests | computation; refuted for names of 256 bytes |
| C80 | `RegisterType::read` and `write` | case analysis; refuted for long arrays |
| C52 | plug-and-play server | exact description of one answer, invariant over histories; refuted by executions |
| C81 | plug-and-play server | case analysis over histories; refuted for the greatest node ID |
| C82 | plug-and-play client | decoding of arbitrary bytes; refuted for the own request of version 2 |
| C83 | both | composition of encoding, server and client |
| C84 | creation of both | computation; refuted for Classic CAN and for failures |
| C85 | stand-alone client | computation; refuted when the transmitter is busy |
| C86 | the three checksums | polynomials over GF(2), congruence invariant; bit reversal |
| C87 | number literals behind the grammar | induction over digits, exact rationals; refuted for `.5` and for underscores in fractions |
| C88 | `unescape_string`, printing of strings | the automaton against a relation, both directions; refuted for `\u+041` |
| C89 | operators, sets, attributes and expressions over exact rationals | per operator against arithmetic and set membership; induction over expressions; refuted for mixed kinds of sets, remainders (C43) and sets of sets |
| C90 | the same | every step keeps values proper; induction over expressions, with conditions on the operands that each operation meets when evaluated; a remainder of lengths is below the divisor and some length; refuted for division by zero and lengths beyond 64 bits |
| C91 | `check_type_compatibility` | both directions, by cases |
| C92 | keywords.rs (`PkgModel`): the two patterns as regular expressions matched by derivatives | derivatives are right for every regular expression; then the language of each pattern |
| C93 | type_key.rs `FromStr`/`Display`, package.rs `parse_file_name` | splitting at dots inverts joining; numbers denote their digits; both directions |
| C94 | package.rs `try_insert`, `validate_full_key` | both directions by cases; invariant over the history of additions |
| C95 | compile.rs (`CompModel`): files as parsed statements; fuel for recursion | the result does not depend on fuel or on what happens at the assertions; the names of pending and finished files are permuted; refuted for references in the wrong case |
| C96 | the same | results are appended after what they refer to: induction over the order of results |
| C97 | the same | invariant of the members of a section, then induction over nesting |
| C98 | compile.rs, directive.rs, constant.rs, types.rs `resolve` | a relation of steps without expressions; an invariant of the section after every prefix of its statements |
| C99 | the same | lengths and flags equal those of `GenModel` for the type without names; with C71 about values, with C43 about what the flags mean; refuted for requests, which are not padded |
| C100 | the same | the same invariant: every statement is allowed after the prefix before it |
| C101 | the same | the same invariant; refuted: names of constants and reserved names for fields, extents that are too short |
| C102 | the same; specification `CompAcceptSpec.v` (`right_types`: types for all files, each after those it refers to) | progress: each statement succeeds in the states that its section reaches, the message is the declared one; induction over fuel for references, in any order of the files; expressions with values by `denotes` (no type attributes, sets, `_offset_`) |
| C103 | `ParseModel.v`: the grammar `dsdl.pest` as a parsing expression grammar with its matcher, and the functions of `ast.rs` that build statements from pairs | a measure on rules and text bounds the fuel; every pair that a rule can produce is characterised and the builder is shown total on it (`ParseSoundProofs.v`) |
| C104 | the same; specification `ParseSpec.v` (`file_text`: which texts are written for which statements, as inductive rules) | for each rule: on a text written for a thing followed by what can follow it, earlier alternatives fail and the rule matches exactly the text (`ParseCompleteProofs.v`, `ParseFileProofs.v`) |
| C105 | the same | induction over matches; the rules are the same as in C104 with `strict = false`, which also allows names that start like a keyword and decimals with leading zeros, and with the values that the code gives (C87) |
| C106 | the same; `strength`, `symbol`, `grouped` in `ParseSpec.v` | from C104 |
| C107 | the same; `laid_out` in `ParseSpec.v` | from C104 |
| C108 | the same | from C104; refuted for names that start like a keyword |
| C109 | `compile_text` in `ParseModel.v`: C103 and C95 composed | from C98, C100, C102, C104 and C105 |
| C110 | `CodeModel.v`: the generator of Rust code as a function from compiled packages to a tree of modules with items (types with names, fields, variants; constants) | `external_for` in `CodeSpec.v` is the innermost registered package; induction over prefixes (`CodeProofs.v`) |
| C111 | the same, with heck's conversions of case for ASCII | the conversions are injective on what remains of names; refuted for the cases in the title |
| C112 | the same; `rust_identifier` in `CodeSpec.v` | characters of converted names; refuted for keywords and leading digits |
| C113 | the same; `module_for`, `named_for`, `shaped_as`, `items_at` in `CodeSpec.v` | the tree holds at a path exactly the items with that path (`CodeItemProofs.v`); references by C96 |
| C114 | the same; `port_value` is what `from_truncating` makes of the number | from the list of items; refuted for IDs out of range |
| C115 | the same; `marked_enum`, `enum_ready` in `CodeSpec.v` | the comment is searched for the directive; the checks are equivalent to the requirements (`CodeEnumProofs.v`); refuted for constants from 2^32 |
| C116 | `write_enum`, `read_enum` in `CodeModel.v` over the cursors of C38 | from C38; refuted for more than 32 bits |
| C117 | the same; `write_code` has the calls that can panic while code is written | lengths exist by C42, zero-copy types have one length; refuted for extents of 4 GiB |
| C118 | the same; `plain_type` in `CodeSpec.v` | from C96; refuted with enums |
| C119 | `BxModel.v`: the driver over a device with three mailboxes, a FIFO and filter banks; histories mix calls with what the hardware does | mailboxes are related to the frames with their deadlines (`rel`), with a history of what left them (`account`); induction over histories (`BxProofs.v`) |
| C120 | the same | copies received and waiting are a subsequence of the copies due; equal while there is room (`BxRxProofs.v`); refuted for three |
| C121 | the same; `passed` in `BxSpec.v` is what passes the filters | frames received and waiting = frames passed, by induction (`BxRxProofs.v`) |
| C122 | the same, with `optimize_filters` of C29 | the banks hold the filters; from C28 and C29 |
| C123 | `bx_flush`: `flush_queue` of C26 with this driver, a clock and a script of when mailboxes are sent; `system` in `BxSpec.v` | invariant `way`: a permutation and, for each identifier, a subsequence of what was pushed (`BxQueueProofs.v`) |
| C124 | the same | a measure of frames in mailboxes and queue, and of whether a mailbox outranks the queue, decreases with each round |
| C125 | `linux_transmit`, `linux_receive`, `linux_filters`, `system_clock` in `BxModel.v` | by cases and induction over events; filters from C28 |
| C126 | `BusSpec.v`: `sender` is a node with queue and driver (C17, C123); the other node is the driver of C121, C122 and the receiver of C18 | transfers become frames (`sender_system`); frames of one identifier are sent exactly in order (from C123); they pass the filters (C29) and are received (C121); induction over the transfers with C18 and C19 (`BusProofs.v`); refuted for different priorities |
| C127 | `WarnModel.v`: the checks of names before and after compiling, and the set of warnings; `WarnSpec.v`: the names in a compiled package, the styles, spelling | the set is what is inserted (`warnings_inserts`), the checks decide the styles (`fine_style`; the fixed points of heck's uppercase form are words between single underscores), suggestions by induction over words (`WarnProofs.v`); refuted for suggestions that are no names |
| C128 | `DocModel.v`: where a comment is appended, beside the state of `CompModel`; `DocSpec.v`: the owner of each comment by position alone, the text for an owner | invariant over the prefix of a file: the last declared is what the text says (`recent`), the body matches the statements (`file_ok` of `CompFileProofs.v`), so the comment goes to its owner (`comment_goes`, `items_documented`); enums by comparing lines; refuted for comments that are dropped |
| C129 | `ImgModel.v`: offsets of symbols, the three writes, padding, names of temporary files, states of the directory, `get_crc` on memory; `ImgSpec.v`: where a static is, loading, what is summed, CRC-64/WE as a remainder (C86) | byte by byte (`put_patched`, `updated_right`); every state of the directory (`states_safe`); refuted for the other byte order, names ending in .tmp, an existing temporary file, bad symbols |
| C130 | `SidModel.v`: `size_bits`, `serialize`, `deserialize` of `SubjectIdList<N>`; `SidSpec.v`: sparse lists as values of the DSDL type | the bits (`packs_sid`, `enc_sparse`); what both deserializers read, field by field (`sid_read`, `generated_sparse`); refuted for N > 255 and the other forms of lists |
| C131 | `MacroModel.v`: the parser of the macro on token trees, paths, external packages, evaluation of the statements; `MacroSpec.v`: how statements are written, and what they ask for | parser sound and complete (`parse_right`), each function exactly (`path_sound`, `path_complete`, `external_right`, `package_right`), induction over statements (`eval_sound`, `eval_complete`); refuted for a missing generate and for options |
| C132 | `FlexModel.v`: identifiers, frames, headers, data and `send` of the FlexCAN driver, access by access, with a controller that acts between the accesses; `FlexSpec.v`: arbitration bit by bit, what a buffer describes, what calls may answer | words as sums of fields (`from_as`), bits of fields (`as_from_cs`), first difference of bit lists against numbers (`compare_value`), invariants over all schedules (`send_general`, `send_in_turn`); refuted for preemption (call never returns, frame doubled, frame lost) and for long frames |
| C133 | `FlexRxModel.v`: receiving from the legacy FIFO, the driver that the node uses, offsets and counts of message buffers, the fields of CTRL1; `FlexRxSpec.v`: a queue of frames, ranges of addresses, the fields as the manual has them | induction over histories of arrivals and calls (`receives_general`), block and place in the block (`space_apart`), bits of fields (`set_field_bit`); refuted for data length codes over 8 and for remote frames |
| C134 | `BxPnpModel.v`: the client, composed of the models of the plug-and-play client, transmitter, queue, receiver and bxCAN driver; `BxPnpSpec.v`: histories of calls and of the hardware, offers | every history of the client is one of the driver and one of the receiver (`run_trace`), with C126 from an allocator to the client; state of the queue (`run_queue`); refuted for sending, for a second request and for short frames |
| C135 | `FilterToolModel.v`: arguments, the loop of `from_str_radix`, `{:#010x}`; `FilterToolSpec.v`: numerals, tables | the parser accepts exactly the numerals below a limit (monotonicity of partial values); printed digits denote the number; C29 for the filters; refuted for zero filters |
| C136 | `GenerateToolModel.v`: options, `BufWriter` on a device with limited room, the order of steps; `GenerateToolSpec.v`: names of packages and modules | content and buffer together are what was written (`pieces_right`); splitting inverts joining; refuted for external packages, formatting and room |
| C137 | `NetSpec.v`: `station` is the node of C45 with the queue and driver of C126, whose operations are told what the queue answered; `node_reads` is a driver and a receiver; the handler writes down what it gets | each operation has one `effect` (`step_effect`); the transfers taken by the queue are those of the history (`station_messages`); `transfers_delivered` generalises C126 to transfers to one node; C63 for the handler |
| C138 | the same, with requests, tokens and responses; frames to other nodes on the same service are ignored (`run_meant`) | as C137, in both directions; the tokens of C47 carry the transfer IDs back |
| C139 | `CanNodeModel.v`: one state of core node, queue, receiver and bxCAN driver; the answers that C45 takes as inputs are those of the modelled transmitter and receiver; histories are `node_path`. C137_nodes and C138_nodes are C137 and C138 for two such nodes | each step is a run of the driver's and of the receiver's operations (`step_parts`); invariant `filtered` (`path_filtered`) over histories, with C28 and C122 for the filters; `listened_reads` for C137/C138 |
| C140 | `can_node_step` of `CanNodeModel.v` gives `Panic` when any part does (the core node's `expect`, the queue, the receiver's arithmetic, the filters, the mailboxes) | invariants of the parts over `node_path` (`path_sendable`, `path_receiver`, `path_filtered`), then each event is total (`step_total`, in `CanNodeTotalProofs.v`); C23 for reception and C124 for flushing |
| C141 | whole serial nodes (`SerialNodeModel.v`): the core node with the transmitter's queue and the receiver of `SerialModel.v`, and a link that accepts and hands out bytes; the answers of transmitter and receiver go back into the core node | the bytes sent and queued are the frames of the accepted transfers (`path_sender`); a stream of frames, interleaved with other operations of the receiver, gives its transfers in order (`stream_run` in `SerialNodeProofs.v`, by an invariant on the rest of the current frame); `SerialLinkProofs.v` joins them |
| C142 | as C141 | as C141 in both directions; the IDs of the responses are those of the requests |
| C143 | `serial_node_step` gives `Panic` when any part does | totality of the parts after any history (C05, C08, C45) |
| C144 | whole UDP nodes (`UdpNodeModel.v`): the core node with the transmitter and the receiver of `UdpModel.v`, and a socket that accepts datagrams and hands out those that have arrived; the answers of transmitter and receiver go back into the core node | the datagrams sent on the subject are those of the accepted transfers (`ip_sender`); a run of the receiver gives on one session what the run of only its datagrams gives (`project`), and transfers whose datagrams come in turn are received in turn (`in_turn`, from C31); `ip_listened_stream` joins them |
| C145 | `ip_node_step` gives `Panic` when any part does | totality of the parts after any history (C30, C37, C45); all times heard on a session are readings of the clock (`heard_times`) |
| C146 | as C144 | the datagrams sent to the group of a node on a port of a service are those of the accepted transfers to this node (`ip_caller`; groups of different nodes differ, C36), then `ip_listened_stream` in both directions; the IDs of the responses are those of the requests |
| C147 | as C144, without any assumption on order, loss or deadlines | every datagram sent is one of a transfer that was handed to the transmitter, and the last one of a transfer only leaves when `publish` returns `Ok` (`ip_offers`); the datagrams of a delivered transfer are consecutive and have one ID (C32), so they are a tail of one transfer, of one whole or at least two datagrams (`tail_of`), and its CRC fits. **The code violates the full property**: the receiver does not check that the first datagram has index 0, so a tail with the same CRC is delivered (`C147_tail_refuted`) |
| C148 | as C144, with a set of transfer IDs whose datagrams are lost | the datagrams that survive are those of the other transfers (`survivors`), then `ip_listened_stream` for these. **The code violates the full property**: one lost datagram of a message makes the receiver drop the next one (`C148_next_refuted`, see C34) |
| C149 | as C147, for the datagrams sent to the group of a node | as C147 (`only_offered`), with the transfers to this node only (`only_sent_to`; groups of different nodes differ, C36) |
| C150 | as C147; the readings of the clock of the subscriber are within the timeout (`near`) | induction over the datagrams that arrive: the session of the publisher remembers the last transfer ID, and takes a datagram of a whole message only with a greater one (`singles_rise`) |
| C53, C54 | subscription and session tables | refinement to finite maps |
| C55 | UDP `push`, `send_frames` with an arbitrary clock and socket | induction over datagrams |
| C56 | UDP receiver | simulation: projection to one source and port commutes with steps |
| C57 | UDP `subscribe_*`, `unsubscribe_*`, `set_id` with the join/leave calls | invariant over histories; refuted after `set_id` |
| C58 | UDP `receive` over any list of socket answers | induction |
| C59 | aligned cursor operations, `fork`, zero-copy read | case analysis; `write_aligned_bytes` refuted by witness |
| C60 | `BitArray` get/set/fill/eq/compare | pointwise reasoning on bits |
| C66–C68 | the frontend's bit lengths and alignment flags, what the generated `serialize`/`deserialize`/`size_bits` do, against an encoding function written from the specification | induction on types; the types for which the code is right are a computed predicate (`good`), the others are refuted by witnesses |
| C69, C72 | generated `deserialize` on any bytes | two-sided induction on types: two cursors that see the same bits give the same result |
| C70 | generated `deserialize` on bad lengths and tags | computation along the fields before |
| C71 | the frontend's bit length sets | induction on types, with the semantics of bit length sets of C42–C44 |

## Trusted base

* Coq 8.16.1's kernel (and `coqchk`).
* The fidelity of the models: they are hand-written from the source text. Nothing here executes the Rust code.
* `fugit` (third party) semantics assumed: `Instant<u32>` comparison: equal ticks are equal; otherwise
  `a < b` iff `(a - b) mod 2^32 > 2^31 - 1`; `checked_duration_since` is `None` if less, else the wrapping
  difference; `a - b` panics if `a < b`; `a + d` wraps.
* `heapless`, `alloc`, `fallible_collections`, `zerocopy`, `nb`: containers behave as lists/maps with their documented capacity.
* Axioms: none so far. `Print Assumptions` is printed under each property theorem.

* Assumed of `Vec`: `try_reserve_exact(n)` on an empty vector gives capacity `n`; `with_capacity(n)` gives capacity `n`
  (the receivers use `capacity()` as the payload limit; a larger capacity would deliver longer payloads).
* `vcheck` lists axioms of `Coq.ssr.ssrunder.Under_rel` as library axioms: they come with loading the installed
  standard library, no theorem here depends on them (`Print Assumptions` says "Closed under the global context" for each).

## Simplifications, by model

* CAN receiver: one subscription list instead of three tables, one memory answer per frame, statistics counters are not
  part of the state.
* UDP: the session table is a function from node IDs to sessions (the tables are proved in `TabProps.v`), an insertion that
  fails is a parameter; the socket cuts datagrams to the MTU.
* Bit length sets: a `BTreeSet` is its sorted list, `multi_cartesian_product` and `combinations_with_replacement` are list
  functions with the same elements, u64 overflow panics (debug assertions on), `usize` has 64 bits.
* Encoding: one function for all widths of `write_uN`/`read_uN`/`skip_N`; floating point values are their bit patterns;
  a composite is what its `serialize` does, described as a list of cursor operations.
* Node: an `FnvIndexMap` is an association list (iteration order is not used), a payload is its serialized bytes, the transmitter's
  answer to each push and the receiver's to each subscription are parameters.
* Generated code: the generator is modelled by what the generated functions do (a list of cursor calls; a function on the read
  cursor), not by the text it prints. Structs generated as fieldless enums (but see C115 and C116), constants, `void` other than padding fields, and the
  padding of service requests are not modelled. Values are trees; floating point values are bit patterns. The target is
  little-endian, `usize` is not bounded. Lengths the frontend cannot calculate (overflow panic) exclude the type (`compiles`).
* Basic node: `node_mut` and handlers are the operation `BInner`; `HeartbeatService` does what `MinimalNode` does and is not modelled
  separately; a payload is made before it is known whether the node publishes on the subject. The DSDL types in `DataTypes.v` are read
  off generated.rs, which is taken to be what the generator prints for them.
* Registers: a block is a list of registers (what the derive macro makes of a struct), a string is its bytes, a validator is a function of
  what it was asked before. `str::from_utf8` is written out.
* Plug-and-play: the CRC-64/WE of crate `crc_any` is written out bit by bit, `C` of the server is the greatest node ID (the code checks this
  when it creates one), `Default` of generated types is all zero.
* DSDL literals: C87 and C88 start from digits, signs and exponent as the grammar has cut them; C104 connects them to the text; `BigInt` and `BigRational` are `N` and `Qc`.
* Expressions (`ExprModel`): a `BTreeSet` is a list without repetitions; cast modes are left out; Unicode normalisation, powers that
  are not integers, conversion to floating point and the sorting of sets of sets are parameters; the state of the compiler is a
  parameter with three functions (offset, constants, other types). Spans and error messages are left out.
* Packages (`PkgModel`): directories and file contents are not read; the patterns of type keys and file names are modelled by splitting
  at dots; digits and letters of other scripts, which the patterns also match, are left out (such names are refused later).
* Compiling (`CompModel`): files are parsed statements; comments are in `DocModel`, warnings in `WarnModel`; positions and the text of errors are left out; the parser
  itself is modelled only for literals, names and keys; converting numbers to floating point is a parameter.
* DSDL grammar: pest is third-party; `run` is the documented meaning of its operators (ordered choice, greedy repetition, predicates, silent and atomic rules), with a token tree of the matched rules. Positions (spans) and error messages are left out. The depth of the stack is not limited, so a stack overflow on deeply nested parentheses is not covered.
* Code generation (`CodeModel`): the generated code is a tree of modules with items, not text; formatting, attributes, lints and documentation are left out, and that rustc accepts the text is not modelled beyond names. heck (third party) is transcribed for ASCII. The comment of a type is a parameter.
* CAN controllers (`BxModel`): crate `bxcan` and the hardware are trusted to do what their documentation says: a frame is taken only if it outranks all that wait, it replaces the one of the lowest priority if no mailbox is free, and filter banks compare identifiers under a mask. Crate `socketcan` and the kernel are trusted likewise (at most 512 filters); a write may succeed, block or fail, as a parameter says.
* Warnings (`WarnModel`): only for packages that compile; the order of the set and the text of warnings are left out.
* Comments (`DocModel`): kept beside the compiled type, in the order of constants and members; positions are numbers of statements.
* Images (`ImgModel`): parsing of ELF files (crate object) is a parameter; writing a file goes through its prefixes and renaming is one step; fsync is not modelled.
* The macro (`MacroModel`): token trees without positions; string literals by their value; the file system is a function from paths to the DSDL files below them, in the order of the walk; the generated code is not printed and read again.
* The FlexCAN driver (`FlexModel`): message buffer 8 and its flag only; one access for all data bytes; the controller itself is not code of the repository: it may start, finish or give up a transmission, or handle a request to abort, before any access, and it copies the buffer when it starts. The code of `svd_generated` is taken at its word.
* Receiving with the FlexCAN driver (`FlexRxModel`): the FIFO is a list without limit, the flag is set while it is not empty; timestamps are left out; `filter.rs` is not used by the driver and not modelled.
* The plug-and-play client for bxCAN devices (`BxPnpModel`): messages of version 1 only; the loop of `receive` has fuel, which is shown to suffice.
* `optimize_filters` (`FilterToolModel`): arguments are UTF-8, `usize` has 64 bits, messages on standard error are kinds.
* The code generator's command line (`GenerateToolModel`): the crate clap (4.1) is assumed to behave as its documentation says (stored types, default of flags, options that occur twice); splitting a command line into options, printing of warnings and of dependencies are left out; reading, compiling, generating and rustfmt are parameters.
* Nodes on a bus (`NetSpec`): a node's receiver is modelled apart from its transmitter. `CanNodeModel` joins both in one state; C137_nodes and C138_nodes are about it. There, one call of the node's `receive` is a step for each transfer, so that a handler's calls are steps in between; the clock and the allocations are inputs of each step.
* Serial nodes (`SerialNodeModel`): as `CanNodeModel`, with the serial transmitter and receiver. The driver is a link that accepts some bytes and then would block, and hands out bytes that have arrived; other driver errors are modelled in `SerialModel` only. The link between two nodes loses and changes no bytes.
* UDP nodes (`UdpNodeModel`): as `CanNodeModel`, with the UDP transmitter and receiver. The socket accepts or refuses each datagram, joins groups or refuses to, and hands out the datagrams that have arrived; that reading it fails is modelled in `UdpModel` only. Between two nodes no datagram of the observed session is lost, doubled or moved; all others are arbitrary.
* The clock is a parameter of each call.

## Not modelled

Hardware, operating system and the crates `bxcan` and `socketcan` (beyond what `BxModel` assumes of them), logging, `defmt`, memory allocation failure except
where stated, threads (the library is single-threaded by `&mut`), generated data types except where stated.
