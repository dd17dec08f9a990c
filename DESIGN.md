# Design

Subject: `fluffy-pancake` (fuzzy password-authenticated key exchange from garbled circuits and oblivious
transfer), read as text from `/repo`. Nothing in `/repo` is built or run.

## 1. Approach

A hand-written functional model in Coq 8.16.1, standard library only.

* Bytes and machine integers are `N` (with explicit range predicates and explicit wrapping), lengths and
  indices `nat`. `&mut` functions return the new value. A `HashMap` is an association list; theorems about
  what is sent hold for every iteration order.
* Every Rust function that can fail has type `outcome A := Ok | Err e | Panic r | UB`. `Panic` covers unwrap,
  index, assert and (in debug builds) overflow; `UB` covers unchecked accesses out of bounds. A `profile`
  argument (`Debug | Release`) switches `debug_assert!` and overflow checks.
* Randomness is an explicit argument; theorems quantify over it.
* SHA-256, the stream generators, HMAC, X25519, Ed25519 and the curve group are Section variables or records:
  parameters of the theorems, not axioms. Statements that need collision resistance conclude "... or these two
  different strings have the same digest", with the pair produced by the run.
* A protocol party is a `proc` (send / receive / finish). A two-party run is a small-step relation with two FIFO
  queues. C29 proves that all maximal reduction sequences end in the same results, so `runs P Q a b` says what
  the parties return under every schedule.
* The number of CPU cores and the architecture (x86, arm, generic) are arguments.
* Dishonest peers (SpecEvil, SpecSteal) are programs in the same `proc` language, run against the model of the
  honest code.

Kinds of files: `Base` (outcome, profile), one `M*` model file per Rust module, `Spec*` (independent
specifications and predicates that occur in theorem statements), `P*` proofs, and `C*` property files with the
named theorems, an Example beside each group of theorems that meets its hypotheses, and `Print Assumptions`.

A property that is false of the code has a theorem ending in `_refuted`: either the negation of the property with a
concrete witness, or the positive description of the wrong behaviour for all inputs of a class. Its status in
MANIFEST.json is "proved" with a note that starts with "False". Where a property holds in part, a second theorem says
exactly when it holds (`_exactly`, C08, C16, C17).

## 2. Modelled code

| Rust | model | left out or simplified |
|---|---|---|
| `src/util.rs` | `MUtil` | `random_bytes` is an argument; `random_number` |
| `src/wires.rs` | `MWires` | hash is a parameter |
| `src/circuit.rs` | `MCircuit` | `Display` |
| `src/garble.rs` | `MGarble` | random draws are arguments |
| `src/ot/bitmatrix.rs` | `MBitMatrix` | transmutes are identities |
| `src/ot/polynomial.rs` | `MPoly` | intrinsics as documented by the vendors; alignment of casts |
| `src/ot/common.rs`, `coinflip.rs`, `chou_orlandi.rs` | `MOt` | curve group and hash are parameters |
| `src/ot/apricot.rs` | `MApricot`, `MPar` | rayon scope: each task once, any order (C41) |
| `src/ot/apricot_classic.rs` | `MClassic` | |
| `src/ot/one_of_many.rs` | `MMany` | |
| `src/fpake.rs`, `src/many_fpake.rs` | `MFpake` | OTs are parameters, instantiated in the theorems "over crate OT" |
| `src/legacy_fpake.rs` | `MLegacy` | same |
| `src/common.rs` (channels, handshakes) | `MProc`, `MChannel` | TCP framing, threads |
| `src/main.rs`, `src/server/main.rs`, `src/client/main.rs` | `MMain` | argument parsing, printing, sockets |
| bincode and serde derives | `MBincode` | the format for the types that are sent |

Not modelled: `src/instrument.rs` (tracing, no effect on results), `benches/`, the test modules, printing helpers,
timing, memory exhaustion (but see C108), TCP framing and thread start-up, alignment of the
`u64`/`u128`/`__m128i` pointer casts in polynomial.rs and apricot.rs.
Probability is expressed by bijections on coins (uniformity, perfect hiding) or by naming the bad coins;
computational security is not modelled.

## 3. Properties: what is modelled and how it is proved

| id | modelled | proof |
|---|---|---|
| C01 | `log2` as bit-length of x-1 | N.size / N.log2 bounds |
| C02-C03 | bit packing loops | induction over bytes, testbit; refutation by a byte |
| C04 | xor helpers | list induction |
| C05 | `Domain::new/num` | case analysis |
| C06-C08 | `Wire` operators, digits of a wire as a vector over Z_m | per-digit modular arithmetic, lifted over lists; refutations by concrete labels; negation for every accepted modulus (PNeg) |
| C09 | `color`, `delta` | the last digit of the vector law |
| C10 | U16MAX branch | every debug operation panics; in release builds the components of the result are read off the byte lists |
| C11-C13 | circuit builders, `eval`, `verify_circuit` | induction over the gate list with an environment invariant |
| C14-C15 | `verify_circuit` | exact characterisation, refutation by circuits |
| C16-C17 | `eval`, `CircuitBuilder` | refutations; clear evaluation is right iff it is right on every gate, since later gates leave earlier wires alone (PEval); input domains as the list of reads |
| C18-C21 | `garble`, `encode`, `evaluate`, `decode` | invariant: label of wire i in the evaluator = W_i + D*x_i; row selection by colour; half gates by case analysis; decode by hash table |
| C22 | binary key conversions | list induction |
| C23 | AND tables with a repeated input | algebraic identity giving the offset |
| C24-C26 | generic, x86, arm multiplication on N | polynomials over GF(2) as N with xor/shift; clmul; reduction lemma |
| C27-C28 | transposes | characterisation of an OR-accumulating write sequence |
| C29 | `proc` and the step relation | diamond property, strictly decreasing measure |
| C30-C34, C65 | negotiation, coin flip, Chou-Orlandi | composition lemma for runs; group laws; bijection on scalars; a point of order 2 |
| C35, C37-C41, C60-C61 | apricot | q = t + delta*x row identity, transposition, field identity for the check; more rows than bits gives a linear dependency (PLinDep) for C38; UB explicit |
| C36, C71 | apricot_classic | the same identities |
| C42-C43 | 1-of-n OT | key-tree XOR identity; slicing arithmetic over cores |
| C44-C47, C62 | fPAKE | composition of C18, C58 and C35 through the run composition lemma (PHalf, PFpake); witness found by computation for 16 bytes; for all other bad lengths a hash and coins under which every label is zero but for its last component, so that garbling and evaluation can be followed for any length (PBad, CBad) |
| C48-C50 | one-of-many fPAKE, version 4 | masks cancel in the distance; then C44/C45 |
| C51 | version 3 | masked circuit of C12, flat label buffers (PFpake3) |
| C52-C53 | versions 1 and 2, and sessions that mix them | same; the XOR of all rows equals the chosen row |
| C54-C57, C67 | auth / signed channels and handshakes | a channel transforms a `proc`; FIFO; MAC oracle; refutations by replayed and reflected frames |
| C58, C64 | bincode encoders/decoders | combinator round-trip law; decoders never panic |
| C59 | a peer that stops (`cut`, SpecCrash) | a party that must still receive never returns Ok |
| C63 | `encode` on short vectors | computation of the padding |
| C66 | passwords of 8192 bytes or more | the counting modulus is taken mod 2^16; the circuit counts modulo it |
| C68-C70 | the programs | composition of C44/C48 with the channels; arguments to bytes |
| C72 | number of results of the OT receivers | symbolic execution against arbitrary frames |
| C73-C75 | what OT senders send | `under_pads`: two runs with different messages differ only under pads; for 1-of-n a generator that differs only on unknown seeds |
| C76 | rows of projection tables | algebra of row 0 (PLeak) |
| C77-C79 | an attacker program (SpecSteal) against the honest code | all labels of the counting wire follow from the leaked offset; the label for 1 occurs t+1 times in a rotation (PSteal); composition through the run lemma |
| C80, C81 | two runs of the same program with hash functions that agree except on 42-byte strings (SpecKey) | the programs hash 40 bytes when garbling and evaluating and 24, 32 or 36 bytes in the OTs (PKey, PKey3), so both runs send the same frames; a relation between programs with and without the other hash is carried through bind (PKey2) and refined to the label for 1 (PKey4) |
| C82 | `evaluate` on circuits as received (MGarble), a garbler that sends a circuit of its choice (SpecHostile) | an invariant over the gates says which wires are initialised (PHostile); the two hostile circuits are sent through encoding and OT and evaluated |
| C83 | the arithmetic of polynomial.rs (MPoly), the polynomials of SpecPoly | squaring 128 times fixes x and so everything, and a computed left inverse of a -> a^2+a shows that 0 and 1 are the only idempotents, so a^(2^128-1) is 0 or 1 (PField); the check is solved for delta (PApricotField) |
| C84 | `ApricotReceiver::exchange` (MApricot), the generator as an oracle | masking the unseen seeds' output by the difference of the choices keeps u; the rows of t change by delta where the choices differ (the correlation of PApricot), so the check's sums agree if the weighted choices agree, which the extra rows can always arrange (PHide) |
| C85 | `HalfKey::evaluator`, `evaluator_server_v3` (MFpake) over `ApricotReceiver` | after its OT the evaluator sends nothing, before it nothing that depends on the secret, so C84 applies (PHide2) |
| C86 | `ManyOTReceiver::exchange` over `OTReceiver::exchange` (MMany, MOt), `mfpake_single` (MFpake) | per instance the answer is the base point times a scalar plus choice times the sender's point; a translation of the scalars hides the choice if that point is a multiple, and the coset reveals it if not (PIndex) |
| C87 | `ApricotSender::exchange` (MApricot) against `evil_receiver` (SpecEvil) | column i gets a one in row i and extra bits that make its weighted sum zero; the sum over columns then vanishes for every delta, row i tells bit i of delta (PGreedy) |
| C88 | the weights `chi` of `ApricotReceiver::exchange` (SpecHide.spans) | weights that do not span lie in the kernel of a non-zero functional, found by elimination; each row can then be written with 127 bits (PSpan) |
| C89 | the worker loop of `ApricotSender::exchange` with its buffer as state, `zero_inplace`, `unpack_bits_to_vec` (MBuffer) | the loops are run side by side; the buffer keeps the length of a row, so `xor` overwrites all of it (PBuffer) |
| C90 | the operators of `Polynomial` and the choice of `gf128_mul_acc` by target (MPolyType) | values of 16 bytes; the field laws of C24-C26 (PPolyType) |
| C91 | the handshakes and channels of MChannel, the programs of MMain, with a third party on the wire (SpecMiddle) | a simulation doubles the frames of every step of the man; two two-party runs are put side by side (PMiddle) |
| C92 | `coinflip_sender`, `coinflip_receiver` (MOt) against cheating peers (SpecCoin) | exchanging two values of the hash function maps sessions with one result to sessions with any other; a sender that hangs up, explicitly |
| C93 | `garble` (MGarble) | row 0 of projections (PLeak) and comparisons, for colour 0 and any other colour; colours of shifted labels |
| C94 | `garbler`, `evaluator`, `mfpake_many`, `mfpake_single`, `garbler_server_v3`, `evaluator_client_v3`, `garbler_client_v3`, `evaluator_server_v3` (MFpake) against peers that read (SpecSpy) | C93 on all exclusive-or wires of the two circuits; symbolic runs |
| C95 | `garble`, `encode` (MGarble) | the hash function is changed at the labels the evaluator lacks (at most two strings per AND gate), zero labels are shifted by the difference of the inputs; equality of active labels by induction over wires, using the evaluation lemma of the half gate |
| C96 | `co_sender`, `co_receiver`, `validate_properties` (MOt), decoders (MBincode) | feeding arbitrary frames; case analysis on the negotiation, the points and the list of ciphertexts; all decoders end with a value or an error |
| C97 | `bv_zeros`, `bv_ones`, `bv_xor`, `bv_and`, assigning forms, `monochrome` (MBitMatrix) | bit by bit through `bit_of` |
| C98 | `co_sender`, `co_receiver`, `ap_sender`, `ap_receiver`, `classic_sender`, `classic_receiver` on empty inputs | `ap_leads` up to the check, then the panic; `quiet_sender` is a repaired sender |
| C99 | `classic_sender` against `sly_receiver` | the verdict as an equation over the 128 columns (`sly_sum`), then `gmul_integral` of C83 |
| C100 | the extensions, the 1-of-2^n OT and the evaluators against any list of frames | a Hoare logic for outcomes (`keeps`) and processes (`holds`, with conditions on the i-th frame) |
| C101 | `CircuitBuilder::offset` with an independent semantics of gates on an unbounded memory | induction over the gates; renaming of the set of unread wires; the table of wires has the size of the unmoved circuit |
| C102 | addition and subtraction of labels of different moduli | case analysis over the five domains; components of the result are below the first modulus |
| C103 | a garbler that sends a projection table with one row, against the evaluator and the programs | symbolic evaluation of the one-gate circuit on labels of known colours; composition of runs |
| C104 | `utf8`, `dec_string`, `validate_properties` against the encodings of scalar values | case analysis on the number of bytes, base-64 digits |
| C105 | the four programs against every list of frames on the wire | `holds` (C100) for every function, carried over the channel by induction on the protocol tree; garbling never reaches an unchecked access |
| C106 | what the decoders accept, over all byte strings | each decoder is shown to consume exactly the encoding of its result, by composition of `take`, little-endian integers, tags and vectors |
| C107 | `main_server`, `main_client`, `many_server_main`, `many_client_main`, `server_v1`–`server_v3`, `client_v1`–`client_v3` with arbitrary frames | a predicate `sized` on protocol trees that consumes a list of sizes; the garbled circuit by the invariant of C18 and the keys of its tables |
| C108 | `evaluate_reserves`, `evaluator_reserves` (first lines of `evaluate`) | a circuit without gates that claims any number of wires; the encoding of a verified circuit has eight bytes for every wire it mentions |
| C109 | the programs of `MMain`, `server_v3`, `client_v3` | a list of rounds per protocol, composed; every program follows its side of it whatever it receives, and two programs that follow the two sides of one list are simulated by two fixed programs that cannot block |
| C110 | `evil_client_v3`, `evil_server_v3` (`SpecSteal3`) against `server_v3`, `client_v3` | the offset read from the tables of the three-input circuit, then the runs of C51 with `steal` in place of `evaluate` |
| C111 | `telling_garbler`, `telling_client`, `telling_server` (`SpecTell`) against `evaluator`, `fpake_server`, `fpake_client` | bitwise: the sum of the chosen labels is the password; runs composed with C77; injectivity of the hashed string |
| C112 | `forcing_garbler`, `reading_evaluator`, `forcing_client` (`SpecForce`) against `evaluator`, `fpake_server` | a circuit of one addition gate whose labels are the same for 0 and 1; the label read in the first half is sent in the second; a key combined with itself is zero |
| C113 | `garbler`, `evaluator`, `fpake_server`, `fpake_client` for lengths with sum modulus 1 (`SpecFlat`) | the gate loop of `garble` and of `evaluate` with an invariant of its own for the labels of modulus 1 (`PFlat`), which the general theory excludes |
| C114 | the evaluators and both sides of every key exchange, behind an attacker who alters incoming frames (`SpecMatch`) | runs are split at the frame with the circuit and put together again with the attacker in between (`PMatch`); the decoders are shown to ignore what follows for all inputs |
| C115 | the circuit and plain fPAKE with threshold 65535 in release builds, all garblers in debug builds | the circuit with any bound in its last gate is garbled and evaluated as in C66 (`PTop`); the bound is 0 after wrapping |
| C116 | plain fPAKE, third version and the version with masks, between sides with passwords of different lengths (`SpecUneven`) | the negotiation of the OT extension fails (C30); the masked list equals that of the cut passwords, then as C48 |
| C117 | attackers against mfpake_many and mfpake_single (`SpecTellMany`) | the run after the 1-out-of-n OT is one of plain fPAKE (`many_after_ot`, `single_after_ot`), then C111 and C112; xor cancels the mask |
| C118 | the two one-of-many exchanges with a client whose number of passwords is arbitrary (`SpecTurns`) | C01 gives the index bits; the negotiation of the base OT fails (C30) unless they agree, then as C48 and C51 |
| C119 | two programs in the same role, all schedules (`SpecRole`) | as C29, for a configuration in which both wait instead of a final one; the handshake and the negotiation by C57 and C30 |
| C120 | two programs over a transport with bounded room (`SpecRoom`) | dialogues of C109 with sizes for the rounds in which both send; an invariant relates the queues to the positions in the dialogue, so both can only wait to send in such a round; with less room a schedule is followed up to the round that clogs |
| C121 | the attackers of C111 and C112 with the messages of the third version (`SpecTell3`) | the sum of labels with zeros on either side is the sum of the labels sent by OT; the rest as for C110, C111 and C112 |
| C122 | the handshake with a weak public key (`SpecWeak`), the man in the middle of C91 who only passes frames on | the man is built along the run of the two programs; the handshake is computed |
| C123 | the peers of C103 with the messages of the one-of-many exchanges (`SpecPicky3`) | the evaluation of the half table of C103, with zeros for the other inputs; the masked password and the failure of each session are collected and decoded |
| C124 | the frames of a peer up to the announced size, the base OT and the last frame (`SpecEnds2`) | the processes are run on any list of frames; the frames left after the base OT are counted (PBounds), its endings are those of C96; all computations in between succeed; the last frame by cases on its length |
| C125 | two programs of different kinds; a program among mirrors (`SpecKinds`) | for each program the first frames it reads and writes are fixed up to values that are drawn; a side that reads such frames gets no result (`doomed` in PKinds), which is an invariant of every schedule; the authenticated channel keeps it |
| C126 | a reader of single frames (`told` in SpecTold), and sides that end with a result only after a frame it can read (`tells`) | the serialised circuit is read back by the decoder whatever follows it; `tells` goes through sequencing and through the authenticated channel |
| C127 | the halves of the three versions put together across versions; a side stays without a key while it gets at most given frames and sends exactly given ones (`kept`, `ends_in` in PVersions) | the first parts run honestly up to the frame the versions disagree on; from there the frames of the two sides are given and neither can go on |
| C128 | the threads of benches/fpake.rs, benches/one_of_many.rs and benches/many_fpake.rs with their inputs (MBench), in release mode; for `C128_v3` and `C128_mfpake` the 1-out-of-n OT is any that works for that number of messages (C42 gives one) | from C42, C46, C48, C51 at the sizes used; the run at 128 bits is computed with the hash of C47 and two sets of labels; the rest of the division by the number of cores is the rest of the division by the chunk size |
| C129 | the whole of wires.rs, garble.rs and HalfKey in release mode, for any circuit whose gates fit (`garblable`, `matched`) and any samples of 32 bytes (`drawn`, `any_coins`) | each operation on wires keeps their length, bytes and domain; invariants over the gate loops: every label has the domain of its wire, every table has a row of the right domain for every colour, every hash map entry can be serialised; the distance circuits have the required shape |
| C130 | the loop bodies of benches/garble.rs and the inputs of the three OT benchmarks (MBench2) | from C129 (the circuits can be garbled whatever the samples; 2^16 bits wrap to modulus 1), C33, C35, C36; all choices false select the first labels |
| C131 | both sides of the three versions and of mfpake_many and mfpake_single in release mode, for any samples of 32 bytes (`any_coins`) | as C129 with the circuit of build_circuit_v2; the first version evaluates on labels in the other order, so evaluation is shown to succeed on any binary labels |
| C132 | every definition with a profile argument, the OTs stacked as in the code (`stack_sender` etc.) | a relation between outcomes (equal, or the first a panic) and one between protocols are shown to be preserved by every construct used, then by every definition in turn; the second relation is carried to `feed` and to `runs` by induction |
| C133 | `ap_mul_acc`, `par_rows`, `par_items`, `many_y`, `ap_sender`, `ap_receiver`, the exchanges and the programs over them | both multiplications are computed to the same polynomial expression, the bound needed for the reduction coming from the second operand only; workers are shown equal to a loop by induction over the chunks, failures included; equality of protocols (`peq`) is carried through every exchange and to `feed` and `runs` |
| C134 | the exchanges over any correct OTs, `combine_keys`, `garble_run` | both keys are computed from the labels of the two garblings (C44, C49, C51, C52) and the equation between the two XORs is solved case by case; with equal randomness the labels of both sides are the same, in either profile, as value labels are unique |
| C135 | `many_sender` and `many_receiver` over `co_sender` and `co_receiver` | the receiver is cut into the internal OT and a computation without messages; the endings of the internal OT (C96) are combined with those of the computation, the lengths of the returned keys being those of the chosen ciphertexts |
| C136 | `server_v1`, `client_v1` and the like over `many_sender`, `many_receiver`, `sender_with`, `receiver_with` | both sides are run up to the exchange in which the sizes differ, and the negotiation of C30 ends it; the first half of a session with as many index bits is that of C52, as the number enters it by its logarithm only |
| C137 | `classic_receiver` over `co_sender` | the receiver is cut after the negotiation and after the internal OT, whose endings are those of C96; what remains reads three frames, and its computations never fail, the sums and the transposed matrix being those of C36 |
| C138 | `server_v1`, `client_v1` and the like, between sides with passwords of different lengths (`SpecUneven`) | the negotiation of the OT extension fails (C30); a list of longer passwords runs as the cut list does (`peq`), to which C52 applies; a server with a key has read every bit of every password |
| C139 | `classic_sender` against a receiver that sends k rows (`SpecLazy`) | the matrix q is the honest one if no missing row is looked up, and the rest of the run is that of C36; otherwise its computation panics at the first missing row |
| C140 | `classic_receiver` over `co_sender`, fed any frames (`SpecHide`) | the rows of u are equal, row by row, in both runs; the rows of t differ by delta where the choices differ, so the sums of the check differ by the weighted sum of the differences times delta, which the extra bits make zero; the base OT reads 129 frames, so the share of the coin flip is frame 130 |
| C141 | `classic_receiver`, `classic_sender` with each value of the processor (`same_party`) | the rows of a transposed matrix are 16 bytes each whatever the matrix is, so the multiplications see elements of the field except for the received x sum; a release build reads the first 16 bytes of that on every processor; the refutation runs the sender against `evil_classic` |
| C142 | `classic_sender`, `classic_receiver` over `co_sender`, `co_receiver` (`takes_turns`, `never_stuck`, `sends_sizes`) | each step of the programs follows `classic_dialogue` and the lists of sizes; rows of a transposed matrix of 128 rows have 16 bytes, which makes the sums 16 bytes long |
| C143 | `classic_sender` with `ap_receiver`, `ap_sender` with `classic_receiver` (`no_result`) | the frames each side can send are listed (`kept`): the properties, then a coin flip frame on one side and the base OT's properties on the other; the side that flips coins stops at the length, the base OT runs out of points |

## 4. Trusted base

* The Coq kernel 8.16.1 (and coqchk, run by vcheck).
* `Print Assumptions` answers "Closed under the global context" for every theorem in section 5: no axioms, neither
  own nor from the standard library. `coqchk` lists seven constants `Coq.ssr.ssrunder.Under_rel.*` in its context: they belong to a
  sealed module of the standard library that is loaded indirectly; no theorem depends on them.
* Faithfulness of the hand translation. Each definition cites the file and lines it models.
* The parameters: hash, stream generators, MAC, signatures, key agreement, curve group. Their assumed laws
  (output lengths, determinism, group laws) are hypotheses of the theorems, and every property file has a toy instance that
  meets them. No law says that the hash is one-way or collision free.
* Rust standard library: `Vec`, slices, iterators, `HashMap`, channels behave as documented. bincode 1.x with default
  options as described in MBincode.
* rayon: the tasks of a scope run exactly once and finish before the scope ends.
* Intel and ARM carry-less multiplication intrinsics as documented by the vendors.

## 5. Theorems and their assumptions

All of the following are closed under the global context.

| id | status | theorems |
|---|---|---|
| C01 | proved | `C01_log2_ceiling`, `C01_log2_zero_panics`, `C01_log2_zero_release` |
| C02 | proved | `C02_unpack_bits`, `C02_repack_lsb_first` |
| C03 | proved, false | `C03_repack_inverse_refuted`, `C03_repack_reverses_bits` |
| C04 | proved | `C04_xor_helpers`, `C04_mask_twice`, `C04_length_mismatch` |
| C05 | proved | `C05_domain_round_trip` |
| C06 | proved | `C06_arithmetic`, `C06_group_laws`, `C06_scalar_laws` |
| C07 | proved, false | `C07_add_every_modulus_refuted` |
| C08 | proved, false | `C08_negation_inverse_except_2`, `C08_negation_inverse_refuted`, `C08_negation_inverse_exactly` |
| C09 | proved | `C09_colour_additive` |
| C10 | proved, false | `C10_modulus_zero_refuted`, `C10_modulus_zero_release` |
| C100 | proved | `C100_extension_receiver`, `C100_classic_receiver`, `C100_many_receiver`, `C100_extension_sender`, `C100_classic_sender`, `C100_evaluator`, `C100_server_v3`, `C100_server_v3_refuted`, `C100_client_v3_refuted` |
| C101 | proved | `C101_same_function`, `C101_same_meaning`, `C101_keeps_metadata`, `C101_in_steps`, `C101_next_wire`, `C101_moved_circuit_evaluates_refuted` |
| C102 | proved | `C102_debug_rejects`, `C102_release_rejects_refuted` |
| C103 | proved, false | `C103_failure_is_independent_refuted`, `C103_failures_tell_nothing_refuted`, `C103_client_refuted`, `C103_server_refuted`, `C103_one_of_many_client_refuted` |
| C104 | proved | `C104_utf8`, `C104_offer`, `C104_injective` |
| C105 | proved | `C105_server`, `C105_client`, `C105_many_server`, `C105_many_client` |
| C106 | proved, false | `C106_accepted`, `C106_garbled`, `C106_whole_frame_refuted`, `C106_garbled_once_refuted` |
| C107 | proved | `C107_server`, `C107_client`, `C107_many_server`, `C107_many_client`, `C107_length_shows`, `C107_v3_server`, `C107_v3_client`, `C107_v1_server`, `C107_v1_client`, `C107_v2_server`, `C107_v2_client` |
| C108 | proved, false | `C108_bounded_refuted`, `C108_verified`, `C108_honest` |
| C109 | proved | `C109_server`, `C109_client`, `C109_many_server`, `C109_many_client`, `C109_v3`, `C109_plain_ends`, `C109_many_ends`, `C109_v3_ends`, `C109_older_servers`, `C109_older_clients`, `C109_older_end` |
| C11 | proved | `C11_hamming_threshold` |
| C110 | proved, false | `C110_wrong_client_gets_key_refuted`, `C110_wrong_server_gets_key_refuted` |
| C111 | proved, false | `C111_half_key_refuted`, `C111_wrong_client_refuted`, `C111_wrong_server_refuted`, `C111_offline_search_refuted` |
| C112 | proved, false | `C112_half_key_forced_refuted`, `C112_insider_refuted`, `C112_outsider_refuted` |
| C113 | proved, false | `C113_half_keys_agree_refuted`, `C113_any_passwords_agree_refuted`, `C113_any_labels_refuted` |
| C114 | proved, false | `C114_fpake_refuted`, `C114_mfpake_refuted`, `C114_v3_refuted`, `C114_legacy_refuted`, `C114_same_key_refuted` |
| C115 | proved, false | `C115_everyone_passes`, `C115_debug_refuted`, `C115_release_refuted`, `C115_exchange_refuted` |
| C116 | proved | `C116_fpake`, `C116_v3`, `C116_mfpake_refuted`, `C116_mfpake_tail_ignored_refuted`, `C116_mfpake_server_panics_refuted`, `C116_mfpake_client_panics_refuted` |
| C117 | proved, false | `C117_wrong_single_refuted`, `C117_wrong_many_refuted`, `C117_offline_search_refuted`, `C117_insider_refuted`, `C117_outsider_refuted` |
| C118 | proved | `C118_mfpake`, `C118_v3`, `C118_mfpake_refuted`, `C118_v3_refuted` |
| C119 | proved, false | `C119_two_servers_refuted`, `C119_two_plain_servers_refuted`, `C119_two_clients_refuted`, `C119_two_many_clients_refuted`, `C119_two_v3_clients_refuted` |
| C12 | proved | `C12_masked_hamming_threshold`, `C12_unmasks` |
| C120 | proved | `C120_plain`, `C120_many`, `C120_v3`, `C120_older_versions`, `C120_same_end`, `C120_base_refuted`, `C120_plain_refuted`, `C120_plain_exact_refuted`, `C120_many_refuted`, `C120_versions_refuted` |
| C121 | proved, false | `C121_wrong_client_refuted`, `C121_wrong_server_refuted`, `C121_offline_search_refuted`, `C121_insider_refuted`, `C121_outsider_refuted` |
| C122 | proved, false | `C122_key_fixed_refuted`, `C122_unnoticed_refuted`, `C122_codes_refuted`, `C122_programs_refuted` |
| C123 | proved, false | `C123_server_v3_refuted`, `C123_one_of_many_server_refuted`, `C123_sessions_tell_a_password_refuted`, `C123_client_v3_refuted` |
| C124 | proved, false | `C124_announced_size_refuted`, `C124_empty_last_frame_refuted`, `C124_receiver_ends`, `C124_sizes`, `C124_coin_flip_ends` |
| C125 | proved | `C125_main_server_many_client`, `C125_many_server_main_client`, `C125_mirrored_server_waits`, `C125_mirrored_server`, `C125_mirrored_many_server`, `C125_mirrored_clients` |
| C126 | proved, false | `C126_half_key_refuted`, `C126_exchanges_refuted`, `C126_legacy_refuted`, `C126_programs_refuted` |
| C127 | proved, false | `C127_v1_server_v2_client`, `C127_v1_server_v3_client`, `C127_v2_server_v1_client`, `C127_v3_server_v1_client`, `C127_v3_server_v2_client`, `C127_v2_server_v3_client_refuted` |
| C128 | proved, false | `C128_fpake`, `C128_fpake_refuted`, `C128_one_of_many`, `C128_one_of_many_refuted`, `C128_v3`, `C128_mfpake`, `C128_mfpake_refuted` |
| C129 | proved, false | `C129_release_runs`, `C129_distance_circuits`, `C129_sizes_refuted`, `C129_exchange_ends` |
| C13 | proved | `C13_built_verify`, `C13_bound_needed` |
| C130 | proved | `C130_garble`, `C130_apricot`, `C130_classic`, `C130_chou_orlandi` |
| C131 | proved | `C131_exchange_ends`, `C131_v1_ends`, `C131_v2_ends`, `C131_mfpake_ends` |
| C132 | proved | `C132_build`, `C132_eval`, `C132_garble`, `C132_evaluate`, `C132_wires`, `C132_helpers`, `C132_base_OT`, `C132_extension`, `C132_classic`, `C132_one_of_many`, `C132_plain`, `C132_mfpake`, `C132_v3`, `C132_v1`, `C132_v2`, `C132_v12`, `C132_v21`, `C132_main`, `C132_many_main` |
| C133 | proved, false | `C133_multiplication`, `C133_workers`, `C133_extension`, `C133_one_of_many`, `C133_core_count_refuted`, `C133_plain`, `C133_mfpake`, `C133_v3`, `C133_v1`, `C133_v2`, `C133_v12`, `C133_v21`, `C133_main`, `C133_many_main` |
| C134 | proved | `C134_plain`, `C134_mfpake`, `C134_v3`, `C134_v1`, `C134_v2`, `C134_v12`, `C134_v21`, `C134_plain_same_coins_refuted`, `C134_mfpake_same_coins_refuted`, `C134_v3_same_coins_refuted`, `C134_v1_same_coins_refuted`, `C134_v2_same_coins_refuted` |
| C135 | proved, false | `C135_list_length_refuted`, `C135_receiver_ends`, `C135_sender_ends` |
| C136 | proved | `C136_v1_bits`, `C136_v1_number`, `C136_v2_bits`, `C136_v12_bits`, `C136_v21_bits`, `C136_v21_number`, `C136_v2_refuted`, `C136_v12_refuted` |
| C137 | proved, false | `C137_points_refuted`, `C137_empty_lists_refuted`, `C137_receiver_ends`, `C137_other_numbers`, `C137_sizes` |
| C138 | proved, false | `C138_client`, `C138_v1_refuted`, `C138_v2_refuted`, `C138_v12_refuted`, `C138_v21_refuted`, `C138_server` |
| C139 | proved, false | `C139_rows_refuted`, `C139_last_bit_refuted` |
| C14 | proved | `C14_verify_circuit` |
| C140 | proved | `C140_classic_hides_choices`, `C140_classic_weights_span`, `C140_same_sum` |
| C141 | proved, false | `C141_receiver`, `C141_sender_release`, `C141_sender`, `C141_sender_debug_refuted` |
| C142 | proved | `C142_sender`, `C142_receiver`, `C142_ends`, `C142_receiver_sizes`, `C142_sender_sizes` |
| C143 | proved | `C143_classic_sender`, `C143_classic_receiver` |
| C15 | proved, false | `C15_verify_protects_refuted` |
| C16 | proved, false | `C16_eval_semantics_refuted`, `C16_eval_semantics_exactly`, `C16_eval_semantics_when_right` |
| C17 | proved, false | `C17_builder_metadata_refuted`, `C17_input_domains_exactly`, `C17_builder_metadata` |
| C18 | proved | `C18_garbled_evaluation` |
| C19 | proved, false | `C19_every_modulus_refuted` |
| C20 | proved | `C20_decode_genuine`, `C20_genuine_unique`, `C20_large_tag_panics` |
| C21 | proved | `C21_decoders_agree` |
| C22 | proved | `C22_binary_keys` |
| C23 | proved, false | `C23_and_leak_refuted`, `C23_and_leak_any_wire_refuted` |
| C24 | proved | `C24_product_is_convolution`, `C24_remainder_unique`, `C24_generic_mul_acc` |
| C25 | proved | `C25_platforms_agree`, `C25_apricot_platforms_agree` |
| C26 | proved | `C26_ring_laws` |
| C27 | proved | `C27_transpose`, `C27_transpose_twice`, `C27_transpose_panics`, `C27_transpose_matrix` |
| C28 | proved, false | `C28_tranpose_64_refuted`, `C28_total`, `C28_forgets_bits_refuted` |
| C29 | proved | `C29_every_schedule_same_results`, `C29_results_are_unique`, `C29_consistent_transcripts` |
| C30 | proved | `C30_negotiation` |
| C31 | proved | `C31_coin_flip_agreement`, `C31_uniform_for_the_receiver`, `C31_uniform_for_the_sender` |
| C32 | proved | `C32_accepts_only_openings`, `C32_commitment_is_binding` |
| C33 | proved | `C33_base_OT_correct` |
| C34 | proved | `C34_choices_perfectly_hidden` |
| C35 | proved | `C35_extension_correct`, `C35_extension_over_base_OT` |
| C36 | proved | `C36_classic_correct`, `C36_classic_over_base_OT` |
| C37 | proved, false | `C37_empty_t_sum_accepted_refuted`, `C37_debug_check_is_complete` |
| C38 | proved, false | `C38_inconsistent_matrix_always_accepted_refuted` |
| C39 | proved | `C39_extension_stays_in_bounds`, `C39_one_of_many_stays_in_bounds` |
| C40 | proved, false | `C40_short_u_is_read_out_of_bounds_refuted`, `C40_short_x_sum_is_read_out_of_bounds_refuted`, `C40_short_seeds_are_read_out_of_bounds_refuted`, `C40_large_index_is_read_out_of_bounds_refuted` |
| C41 | proved | `C41_workers` |
| C42 | proved | `C42_one_of_many_correct`, `C42_one_of_many_over_base_OT` |
| C43 | proved, false | `C43_debug_core_count_refuted`, `C43_release_core_count_refuted`, `C43_message_count_refuted` |
| C44 | proved | `C44_half_keys_agree`, `C44_half_keys_agree_over_crate_OT` |
| C45 | proved | `C45_half_keys_differ` |
| C46 | proved | `C46_combine_commutes`, `C46_combine_injective`, `C46_keys_agree`, `C46_keys_differ_on_one_threshold` |
| C47 | proved, false | `C47_every_length_refuted`, `C47_sixteen_bytes_refuted`, `C47_bad_lengths_refuted`, `C47_debug_overflow_refuted`, `C47_working_lengths` |
| C48 | proved | `C48_keys_agree`, `C48_keys_agree_over_crate_OT` |
| C49 | proved | `C49_half_keys`, `C49_keys_differ` |
| C50 | proved | `C50_mask_hides_password`, `C50_client_view` |
| C51 | proved | `C51_server_garbles`, `C51_client_garbles`, `C51_both_halves`, `C51_keys_agree`, `C51_beyond_threshold` |
| C52 | proved | `C52_v1_server_garbles`, `C52_v1_client_garbles`, `C52_v1_keys_agree`, `C52_v2_server_garbles`, `C52_v2_client_garbles`, `C52_v2_keys_agree`, `C52_v1_v2_keys`, `C52_v2_v1_keys`, `C52_v1_v2_keys_agree`, `C52_v2_v1_keys_agree`, `C52_single_password_refuted` |
| C53 | proved, false | `C53_index_hidden_refuted` |
| C54 | proved | `C54_one_message`, `C54_in_order`, `C54_auth_transparent`, `C54_signed_transparent`, `C54_signed_message`, `C54_signed_protocols` |
| C55 | proved | `C55_recv_checks_the_code`, `C55_protocol_sees_checked_messages`, `C55_delivered_was_coded`, `C55_nothing_new_from_recorded_frames`, `C55_signed_recv_checks_the_signature` |
| C56 | proved, false | `C56_replay_refuted`, `C56_reorder_refuted`, `C56_no_replay_refuted`, `C56_reflection_refuted`, `C56_signed_replay_refuted` |
| C57 | proved | `C57_auth_handshake_agrees`, `C57_signed_handshake_agrees`, `C57_session` |
| C58 | proved | `C58_messages_round_trip`, `C58_garbled_circuits_round_trip`, `C58_public_keys_round_trip` |
| C59 | proved | `C59_base_OT_receiver`, `C59_extension_receiver`, `C59_evaluator`, `C59_programs`, `C59_one_of_many_client`, `C59_classic_receiver`, `C59_one_of_many_receiver`, `C59_one_of_many`, `C59_third_version`, `C59_first_version`, `C59_second_version`, `C59_mixed_versions` |
| C60 | proved, false | `C60_large_messages_panic_refuted` |
| C61 | proved, false | `C61_honest_release_run_aborts_refuted`, `C61_release_outcome` |
| C62 | proved | `C62_key_string_unambiguous`, `C62_equal_half_keys` |
| C63 | proved, false | `C63_short_vector_refuted` |
| C64 | proved | `C64_hostile_bytes_only_fail_to_decode` |
| C65 | proved, false | `C65_choices_hidden_from_any_points_refuted` |
| C66 | proved, false | `C66_distant_passwords_agree_refuted`, `C66_everything_agrees_refuted`, `C66_reduced_distance_agrees`, `C66_reduced_distance_differs` |
| C67 | proved, false | `C67_server_survives_bad_key_refuted`, `C67_server_survives_disconnect_refuted`, `C67_malformed_signature_refuted`, `C67_signed_server_survives_bad_key_refuted`, `C67_signed_client_never_panics`, `C67_auth_recv_never_panics` |
| C68 | proved | `C68_programs_agree`, `C68_many_programs_agree` |
| C69 | proved | `C69_typed_bits_distance` |
| C70 | proved, false | `C70_size_in_bits_refuted` |
| C71 | proved, false | `C71_short_x_sum_is_read_out_of_bounds_refuted` |
| C72 | proved | `C72_apricot_returns_one_message_per_choice`, `C72_base_OT_refuted`, `C72_classic_refuted` |
| C73 | proved | `C73_base_OT_pads` |
| C74 | proved | `C74_extension_pads`, `C74_classic_pads` |
| C75 | proved | `C75_other_messages_hidden` |
| C76 | proved, false | `C76_projection_offset_refuted`, `C76_comparison_offset_refuted` |
| C77 | proved, false | `C77_half_key_stolen_refuted`, `C77_half_key_stolen_over_crate_OT_refuted`, `C77_password_recovered_refuted` |
| C78 | proved, false | `C78_wrong_client_gets_key_refuted`, `C78_wrong_server_gets_key_refuted`, `C78_wrong_client_over_crate_OT_refuted` |
| C79 | proved, false | `C79_wrong_single_gets_key_refuted`, `C79_wrong_many_gets_key_refuted` |
| C80 | proved | `C80_garbler_frames_do_not_tell_the_half_key`, `C80_evaluator_frames_do_not_tell_the_half_key`, `C80_half_key_rests_on_the_label_for_1`, `C80_over_crate_OT` |
| C81 | proved | `C81_fpake_keys_can_be_anything`, `C81_many_fpake_keys_can_be_anything`, `C81_many_fpake_over_crate_OT`, `C81_key_rests_on_the_own_label`, `C81_recorded_session_fits_every_key` |
| C82 | proved, false | `C82_no_uninitialised_read`, `C82_own_circuits_are_safe`, `C82_evaluator_is_memory_safe_refuted`, `C82_evaluator_never_panics_refuted`, `C82_client_is_memory_safe_refuted` |
| C83 | proved | `C83_modulus_irreducible`, `C83_inverses`, `C83_no_zero_divisors`, `C83_wrong_sums_fit_one_delta` |
| C84 | proved | `C84_extension_hides_choices`, `C84_changes_undo`, `C84_same_sum` |
| C85 | proved | `C85_evaluator_hides_password`, `C85_server_hides_mask` |
| C86 | proved, false | `C86_index_hidden`, `C86_index_hidden_from_any_points_refuted`, `C86_client_index_refuted` |
| C87 | proved, false | `C87_receiver_gets_one_message_refuted` |
| C88 | proved | `C88_few_weights_do_not_span`, `C88_apricot_weights_span`, `C88_spanning_decidable` |
| C89 | proved | `C89_buffer_is_harmless`, `C89_unpack_bits`, `C89_zero_inplace_clears_refuted` |
| C90 | proved | `C90_additions_agree`, `C90_addition_is_a_group`, `C90_mul_add_assign`, `C90_mul_add_distributes`, `C90_additions_always_agree_refuted`, `C90_operator_multiplies_refuted` |
| C91 | proved, false | `C91_auth_channel_stops_the_man_refuted`, `C91_signed_channel_stops_the_man_refuted`, `C91_two_sessions`, `C91_man_between_the_programs_refuted` |
| C92 | proved | `C92_receiver_cannot_steer`, `C92_exchange_undoes`, `C92_sender_cannot_steer_refuted` |
| C93 | proved, false | `C93_projected_value_refuted`, `C93_compared_value_refuted`, `C93_binary_value_refuted` |
| C94 | proved, false | `C94_password_read_refuted`, `C94_fpake_client_reads_refuted`, `C94_fpake_server_reads_refuted`, `C94_password_read_over_crate_OT_refuted`, `C94_single_reads_entry_refuted`, `C94_many_reads_difference_refuted`, `C94_v3_client_reads_entry_refuted`, `C94_v3_server_reads_difference_refuted` |
| C95 | proved | `C95_projection_free_private` |
| C96 | proved, false | `C96_frame_length_refuted`, `C96_sender_ends`, `C96_receiver_ends` |
| C97 | proved, false | `C97_constant_vectors`, `C97_size_refuted`, `C97_operators`, `C97_shorter_right_operand_refuted`, `C97_longer_right_operand`, `C97_monochrome` |
| C98 | proved, false | `C98_base_OT_transfers_nothing`, `C98_empty_messages_refuted`, `C98_no_messages_refuted`, `C98_no_choices_refuted`, `C98_classic` |
| C99 | proved, false | `C99_inconsistent_caught_half`, `C99_equal_sums_are_rare`, `C99_always_caught_refuted` |
