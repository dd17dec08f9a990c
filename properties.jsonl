{"id": "C01", "title": "log2 is the ceiling logarithm", "statement": "For every n >= 1 of an unsigned w-bit type, log2(n) returns the least k with n <= 2^k; log2(0) panics in a debug build.", "quantifier": "all word widths w and all n with 1 <= n < 2^w", "why_tests_cant": "The test checks seven literals; the index width of every 1-of-n OT depends on the value for every possible number of passwords.", "anchors": ["src/util.rs:log2"]}
{"id": "C02", "title": "Byte-to-bit unpacking is LSB-first and complete", "statement": "u8_vec_to_bool_vec (and its copies inside the protocols) returns exactly 8 bits per byte, bit j of the output being bit (j mod 8) of byte j/8, and packing them back LSB-first gives the input bytes.", "quantifier": "all byte strings", "why_tests_cant": "Unbounded input space; the password, the OT choices and the garbled wires are aligned only through this order.", "anchors": ["src/util.rs:u8_vec_to_bool_vec", "src/ot/apricot.rs:unpack_bits_to_vec"]}
{"id": "C03", "title": "bool_vec_to_u8_vec inverts u8_vec_to_bool_vec", "statement": "A caller who unpacks bytes with u8_vec_to_bool_vec and repacks them with bool_vec_to_u8_vec expects the original bytes back.", "quantifier": "all byte strings", "why_tests_cant": "Palindromic bytes such as 0x00, 0xFF or 0x81 survive the trip, so an unlucky choice of test data hides the difference.", "anchors": ["src/util.rs:bool_vec_to_u8_vec", "src/util.rs:u8_vec_to_bool_vec"]}
{"id": "C04", "title": "XOR helpers are involutive masks", "statement": "xor, xor_bytes and xor_bytes_inplace on equal-length inputs return the bytewise XOR and applying the same mask twice restores the input.", "quantifier": "all pairs of equal-length byte strings, both build profiles", "why_tests_cant": "Every mask, one-time pad and key combination in the protocols relies on it for all values and lengths.", "anchors": ["src/util.rs:xor", "src/util.rs:xor_bytes", "src/util.rs:xor_bytes_inplace"]}
{"id": "C05", "title": "Wire domain numbers round-trip", "statement": "A wire created for modulus m reports domain m, for every m except 65535, for which creation panics.", "quantifier": "all 65536 values of m", "why_tests_cant": "The encoding-key lookup delta[wire.domain()] silently depends on this for every modulus used by any circuit.", "anchors": ["src/wires.rs:Domain::new", "src/wires.rs:Domain::num"]}
{"id": "C06", "title": "Wire arithmetic is modular arithmetic (supported moduli)", "statement": "For a modulus m with 2 <= m <= 128 or 255 <= m <= 32768, adding, subtracting and scaling wire labels is componentwise arithmetic modulo m (XOR for m = 2): labels stay in range, + is an abelian group operation, - undoes +, and (label * a) + (label * b) = label * ((a+b) mod m). No operation panics in either build profile.", "quantifier": "all supported moduli, all in-range labels, all scalars below m, debug and release builds", "why_tests_cant": "Free-XOR style garbling is correct only if the algebra holds for every label the RNG can produce.", "anchors": ["src/wires.rs:ops::Add for &Wire", "src/wires.rs:ops::Sub for &Wire", "src/wires.rs:ops::Mul for &Wire"]}
{"id": "C07", "title": "Wire addition is correct for every accepted modulus", "statement": "Every modulus m that Wire creation accepts gives componentwise addition modulo m.", "quantifier": "all m accepted by Domain::new, all in-range labels", "why_tests_cant": "Wrong results appear only when two random components sum past 255 (or 65535).", "anchors": ["src/wires.rs:ops::Add for &Wire", "src/wires.rs:ops::Sub for &Wire"]}
{"id": "C08", "title": "Wire negation is the additive inverse", "statement": "-w is the additive inverse of w in w's domain.", "quantifier": "all moduli and all labels", "why_tests_cant": "Needs the law for all labels; garble only uses negation in a place where a wrong sign is masked.", "anchors": ["src/wires.rs:ops::Neg for &Wire"]}
{"id": "C09", "title": "Colour is additive (permute-and-point)", "statement": "For a label W and the domain's delta D, colour(W + D*x) = (colour(W) + x) mod m, so the evaluator's colour always selects the row the garbler wrote for the active value.", "quantifier": "all supported moduli, labels, deltas and values x < m", "why_tests_cant": "A single bad (label, value) pair makes one evaluation in 2^k fail; tests sample fresh randomness each run.", "anchors": ["src/wires.rs:Wire::color", "src/wires.rs:Wire::delta"]}
{"id": "C10", "title": "The modulus-0 (2^16) domain is usable", "statement": "Wire arithmetic in the domain created by Wire::new(0) (modulus 65536) works in every build profile.", "quantifier": "all labels in that domain, both build profiles", "why_tests_cant": "The failure is in debug-only assertions and in loops over 0..domain().", "anchors": ["src/wires.rs:Domain::U16MAX", "src/wires.rs:map_as_u16", "src/wires.rs:map_with_as_u16", "src/garble.rs:DecodingKey::decode"]}
{"id": "C11", "title": "build_circuit computes the Hamming threshold", "statement": "Evaluating build_circuit(n,t) in the clear on two n-bit strings returns output 1 exactly when their Hamming distance is at most t, and 0 otherwise.", "quantifier": "all n from 0 to 65534, all t from 0 to 65534, all pairs of n-bit strings", "why_tests_cant": "2^(2n) inputs for each n; the sum could wrap or the comparison could be off by one at one distance only.", "anchors": ["src/circuit.rs:build_circuit", "src/circuit.rs:Circuit::eval"]}
{"id": "C12", "title": "build_circuit_v2 computes the masked Hamming threshold", "statement": "Evaluating build_circuit_v2(n,t) in the clear on three n-bit strings a,b,c returns 1 exactly when the weight of a xor b xor c is at most t; in particular with b the mask and c the masked password it compares the unmasked strings.", "quantifier": "all n, t up to 65534 and all triples of n-bit strings", "why_tests_cant": "2^(3n) inputs per n.", "anchors": ["src/circuit.rs:build_circuit_v2", "src/circuit.rs:Circuit::eval"]}
{"id": "C13", "title": "Built circuits verify", "statement": "verify_circuit accepts every circuit returned by build_circuit and build_circuit_v2.", "quantifier": "all bit sizes and thresholds in range", "why_tests_cant": "The wire count is symbolic in n.", "anchors": ["src/circuit.rs:verify_circuit", "src/circuit.rs:build_circuit", "src/circuit.rs:build_circuit_v2"]}
{"id": "C14", "title": "verify_circuit characterisation", "statement": "verify_circuit returns Ok exactly when the declared wire count equals the number of distinct wires mentioned by the gates and no two gates write the same wire; otherwise it returns BadWireCount with both counts, or BadOutputCount.", "quantifier": "all circuits", "why_tests_cant": "Unbounded space of circuits.", "anchors": ["src/circuit.rs:verify_circuit"]}
{"id": "C15", "title": "verify_circuit protects garble and evaluate", "statement": "A circuit accepted by verify_circuit can be garbled and evaluated without a panic, out-of-order read or wrong result.", "quantifier": "all circuits accepted by verify_circuit", "why_tests_cant": "Only adversarially shaped circuits show the gap.", "anchors": ["src/circuit.rs:verify_circuit", "src/garble.rs:garble", "src/garble.rs:evaluate"]}
{"id": "C16", "title": "Clear evaluation agrees with the gate semantics", "statement": "Circuit::eval computes, for every gate, the same function the garbled gate computes: sum mod domain, constant multiple mod domain, projection, logical AND of the two inputs.", "quantifier": "all well-formed circuits and inputs", "why_tests_cant": "Test circuits contain no Mul or And gate evaluated in the clear.", "anchors": ["src/circuit.rs:Circuit::eval"]}
{"id": "C17", "title": "CircuitBuilder produces consistent metadata", "statement": "A circuit built with CircuitBuilder has one input domain per declared input, in input order, and the right wire and output counts, so that it can be garbled.", "quantifier": "all sequences of add_gate calls", "why_tests_cant": "The only test has a single gate, for which the metadata happen to be right.", "anchors": ["src/circuit.rs:CircuitBuilder::add_gate", "src/circuit.rs:CircuitBuilder::build"]}
{"id": "C18", "title": "Garbled evaluation is correct", "statement": "For every well-formed circuit over supported moduli, every input and every randomness, encode, evaluate and decode return exactly the circuit's outputs, unless the run exhibits two different byte strings with the same SHA-256 digest. No step panics, in either build profile.", "quantifier": "all well-formed circuits (any number of gates, any of the four gate kinds), all inputs, all random labels and deltas, all hash functions with 32-byte output", "why_tests_cant": "Unbounded circuits and 2^256 labels per wire.", "anchors": ["src/garble.rs:garble", "src/garble.rs:evaluate", "src/garble.rs:encode", "src/garble.rs:decode", "src/garble.rs:DecodingKey::decode"]}
{"id": "C19", "title": "Garbled evaluation is correct for every accepted modulus", "statement": "The same as C18 for every circuit whose moduli are accepted by Wire creation.", "quantifier": "all circuits whose moduli Domain::new accepts", "why_tests_cant": "Failure depends on the random labels drawn.", "anchors": ["src/garble.rs:garble", "src/garble.rs:evaluate", "src/wires.rs:ops::Add for &Wire"]}
{"id": "C20", "title": "Decoding accepts only genuine output labels", "statement": "If decode returns value k for an output wire then the label presented is the garbler's label for k on that wire, unless two different byte strings with the same SHA-256 digest are exhibited; any other label is answered with DecodeError.", "quantifier": "all garbled circuits, all wire vectors presented by an evaluator", "why_tests_cant": "Quantifies over every forged label.", "anchors": ["src/garble.rs:decode", "src/garble.rs:DecodingKey::decode"]}
{"id": "C21", "title": "The two decoders agree", "statement": "The free function decode and DecodingKey::decode return the same result on every key and every full-length label vector.", "quantifier": "all decoding keys and label vectors of the key's length", "why_tests_cant": "Duplicate implementations, unbounded inputs.", "anchors": ["src/garble.rs:decode", "src/garble.rs:DecodingKey::decode"]}
{"id": "C22", "title": "Binary encoding keys agree with general encoding keys", "statement": "For a key whose wires are all binary, BinaryEncodingKey::from(key).encode(bits) equals encode(key, bits as 0/1), zipped/unzipped are inverse, and converting back gives a key with the same binary encodings.", "quantifier": "all binary encoding keys with at least one wire, all bit vectors", "why_tests_cant": "All labels and lengths.", "anchors": ["src/garble.rs:BinaryEncodingKey", "src/garble.rs:EncodingKey"]}
{"id": "C23", "title": "AND gates do not leak the global offset", "statement": "The garbled tables together with one active label per wire do not determine the global offset delta.", "quantifier": "all circuits with AND gates", "why_tests_cant": "A statement about all evaluator computations on the transcript.", "anchors": ["src/garble.rs:garble (GateKind::And, j0, j1)"]}
{"id": "C24", "title": "GF(2^128) multiply-accumulate is multiplication modulo x^128+x^7+x^2+x+1", "statement": "polynomial_mul_acc_generic(acc,a,b) replaces acc by acc xor (a*b mod x^128+x^7+x^2+x+1) for all 128-bit values, terminates and touches nothing else.", "quantifier": "all triples of 128-bit values", "why_tests_cant": "2^384 inputs; the test multiplies (x+1)(x^2+1), which never reaches the reduction.", "anchors": ["src/ot/polynomial.rs:polynomial_mul_acc_generic", "src/ot/polynomial.rs:gf128_reduce"]}
{"id": "C25", "title": "Platform multiplications agree", "statement": "The x86 intrinsics version, the aarch64 version and the generic version of the multiply-accumulate return the same result.", "quantifier": "all triples of 128-bit values", "why_tests_cant": "The tests compare 100 random pairs on the host's own platform only.", "anchors": ["src/ot/polynomial.rs:polynomial_mul_acc_x86", "src/ot/polynomial.rs:polynomial_gf128_reduce", "src/ot/polynomial.rs:polynomial_mul_acc_arm64", "src/ot/apricot.rs:polynomial_mul_acc"]}
{"id": "C26", "title": "GF(2^128) ring laws", "statement": "The product computed by the multiply-accumulate is commutative, associative, distributes over XOR and has 1 as identity.", "quantifier": "all 128-bit values", "why_tests_cant": "The OT correlation check is an identity over all field elements.", "anchors": ["src/ot/polynomial.rs:gf128_mul_acc"]}
{"id": "C27", "title": "Bit matrix transposition", "statement": "BitMatrix::transpose and apricot's transpose_matrix put bit (i,j) of the source at bit (j,i) of the result when the row count is a multiple of 8; transposing twice gives the original matrix; otherwise BitMatrix::transpose panics.", "quantifier": "all bit matrices of all dimensions", "why_tests_cant": "No test covers transposition at all; it must hold for every size.", "anchors": ["src/ot/bitmatrix.rs:BitMatrix::transpose", "src/ot/apricot.rs:transpose_matrix"]}
{"id": "C28", "title": "tranpose_64 transposes a 64x64 bit matrix", "statement": "tranpose_64 replaces a 64x64 bit matrix by its transpose.", "quantifier": "all 64x64 bit matrices", "why_tests_cant": "Symmetric matrices hide the defect; the function is untested.", "anchors": ["src/ot/bitmatrix.rs:tranpose_64"]}
{"id": "C29", "title": "Two-party runs are independent of the schedule", "statement": "For any two protocol endpoints connected by the crate's FIFO channels, if one interleaving of sends and receives finishes with results (a,b), then every interleaving finishes, and with the same (a,b); no interleaving deadlocks.", "quantifier": "all endpoint programs built from send/recv, all interleavings", "why_tests_cant": "The number of schedules is exponential and threads are scheduled by the OS.", "anchors": ["src/common.rs:ChannelSender", "src/common.rs:ChannelReceiver", "src/common.rs:raw::local_channel_pair"]}
{"id": "C30", "title": "Property negotiation", "statement": "validate_properties returns Ok on both sides exactly when the two sides announce the same message count and the same protocol name; otherwise both sides return the BadProperties error.", "quantifier": "all pairs of announced properties, all schedules", "why_tests_cant": "All counts, all strings, all interleavings.", "anchors": ["src/ot/common.rs:validate_properties"]}
{"id": "C31", "title": "Coin flip agreement", "statement": "When both sides run the coin flip honestly both return Ok with the same N bytes, the XOR of the two contributions; in particular each side's uniform contribution makes every result equally likely.", "quantifier": "all N, all contributions, all schedules", "why_tests_cant": "All random contributions and interleavings.", "anchors": ["src/ot/coinflip.rs:coinflip_sender", "src/ot/coinflip.rs:coinflip_receiver"]}
{"id": "C32", "title": "Coin flip commitment is binding", "statement": "A peer of coinflip_receiver that has sent its commitment can make it accept at most one opening, unless it exhibits a SHA-256 collision; any other behaviour of the peer makes it return an error.", "quantifier": "all peers, i.e. all message sequences fed to the receiver, and all receiver randomness", "why_tests_cant": "Quantifies over malicious peers.", "anchors": ["src/ot/coinflip.rs:coinflip_receiver"]}
{"id": "C33", "title": "Base OT (Chou-Orlandi) correctness", "statement": "When sender and receiver run honestly with equally many message pairs and choice bits, both return Ok and the receiver gets for every i exactly the message selected by its i-th bit, whatever the lengths of the messages.", "quantifier": "all message vectors (any number, any lengths), all choices, all secret scalars, all schedules, all abelian groups with a faithful point encoding, all hash and stream functions", "why_tests_cant": "The test transfers one fixed pair.", "anchors": ["src/ot/chou_orlandi.rs:Sender::exchange", "src/ot/chou_orlandi.rs:Receiver::exchange"]}
{"id": "C34", "title": "Base OT hides the choices perfectly", "statement": "Whatever public keys the sender sends (multiples of the base point), for every choice vector and every other choice vector there is a bijection of the receiver's secrets under which the receiver sends exactly the same messages.", "quantifier": "all sender messages in the group generated by the base point, all pairs of choice vectors", "why_tests_cant": "A distributional statement over all receiver randomness.", "anchors": ["src/ot/chou_orlandi.rs:Receiver::exchange"]}
{"id": "C35", "title": "OT extension (Apricot) correctness", "statement": "When both sides run honestly with n message pairs of equal size s (n a positive multiple of 8, 1 <= s <= 65535), the correlation check passes and the receiver gets exactly the selected messages, independently of the number of CPU cores and in both build profiles.", "quantifier": "all n, s, messages, choices, random seeds and deltas, all core counts >= 1, all schedules", "why_tests_cant": "A field identity over random 128-bit values plus index arithmetic for all sizes and core counts.", "anchors": ["src/ot/apricot.rs:Sender::exchange", "src/ot/apricot.rs:Receiver::exchange"]}
{"id": "C36", "title": "OT extension (classic) correctness", "statement": "The same for apricot_classic with n a positive multiple of 8 and arbitrary message lengths.", "quantifier": "all n, messages, choices, randomness, schedules", "why_tests_cant": "As above.", "anchors": ["src/ot/apricot_classic.rs:Sender", "src/ot/apricot_classic.rs:Receiver"]}
{"id": "C37", "title": "OT extension rejects malformed correlation sums", "statement": "The Apricot sender returns Ok only if the received t_sum equals the recomputed sum in all 16 bytes.", "quantifier": "all messages a malicious receiver can send, both build profiles", "why_tests_cant": "Only a malicious peer shows it, and only in release builds.", "anchors": ["src/ot/apricot.rs:eq", "src/ot/apricot.rs:Sender::exchange"]}
{"id": "C38", "title": "OT extension check weights are unpredictable when the receiver commits to its matrix", "statement": "A receiver that encodes inconsistent choice vectors cannot know in advance that the correlation check will accept them.", "quantifier": "all coin-flip results, all deltas, all malicious receiver matrices", "why_tests_cant": "Statement about all adversaries; honest tests never exercise the check's soundness.", "anchors": ["src/ot/apricot.rs:Sender::exchange (coinflip before u)", "src/ot/apricot_classic.rs:Sender::correlation_check"]}
{"id": "C39", "title": "Unchecked accesses stay in bounds (honest peers)", "statement": "In honest runs of the OT extension and of 1-of-n OT with an index below the number of messages, every unchecked slice access is in bounds.", "quantifier": "all sizes, choices, messages, core counts", "why_tests_cant": "Out-of-bounds reads are silent in release builds.", "anchors": ["src/util.rs:vector_row", "src/util.rs:vector_row_mut", "src/util.rs:vector_slice", "src/ot/apricot.rs", "src/ot/one_of_many.rs"]}
{"id": "C40", "title": "No peer message or argument causes an out-of-bounds access", "statement": "No message sent by a peer and no argument of a safe public function causes an unchecked slice access outside its buffer.", "quantifier": "all peer messages and all arguments", "why_tests_cant": "Undefined behaviour cannot be asserted by a test.", "anchors": ["src/ot/apricot.rs:Sender::exchange (u, x_sum)", "src/ot/one_of_many.rs:ManyOTReceiver::exchange (choice)"]}
{"id": "C41", "title": "Worker decomposition is irrelevant in the OT extension", "statement": "Splitting rows over worker threads by pick_suitable_thread_count gives the sequential result for every row count >= 1, core count >= 1 and every interleaving of the workers' row writes.", "quantifier": "all row counts, core counts, interleavings of row writes", "why_tests_cant": "Interleavings and core counts of machines the tests never ran on.", "anchors": ["src/ot/apricot.rs:pick_suitable_thread_count", "src/ot/apricot.rs:rayon::scope sections"]}
{"id": "C42", "title": "1-of-n OT correctness", "statement": "With 2^d equally long non-empty messages and an index below 2^d, the receiver gets exactly the indexed message, whatever internal 1-of-2 OT is used (if correct), for domain <= 2 or a core count that divides 2^d or exceeds it.", "quantifier": "all d, messages, indices, keys, core counts satisfying the guard, all schedules", "why_tests_cant": "All sizes, indices and core counts.", "anchors": ["src/ot/one_of_many.rs:ManyOTSender::exchange", "src/ot/one_of_many.rs:ManyOTReceiver::exchange"]}
{"id": "C43", "title": "1-of-n OT works on every machine and for every message count", "statement": "ManyOTSender::exchange with domain = log2(messages.len()) succeeds for every number of messages and every number of CPU cores.", "quantifier": "all message counts >= 1 and core counts >= 1", "why_tests_cant": "Depends on the machine's core count and on counts that are not powers of two.", "anchors": ["src/ot/one_of_many.rs:ManyOTSender::exchange", "src/many_fpake.rs:mfpake_many"]}
{"id": "C44", "title": "fPAKE half-keys agree within the threshold", "statement": "If the two passwords have the same length of 1..15 or 32..4095 bytes and Hamming distance at most the garbler's threshold (<= 65534), HalfKey::garbler and HalfKey::evaluator both return Ok with the same half-key.", "quantifier": "all such password pairs, thresholds, randomness, core counts, schedules, both profiles", "why_tests_cant": "2^(2n) password pairs times all randomness.", "anchors": ["src/fpake.rs:HalfKey::garbler", "src/fpake.rs:HalfKey::evaluator"]}
{"id": "C45", "title": "fPAKE half-keys differ beyond the threshold", "statement": "If the Hamming distance exceeds the garbler's threshold, the two half-keys differ unless the run exhibits a SHA-256 collision.", "quantifier": "all such password pairs, thresholds, randomness, schedules", "why_tests_cant": "As above; a false accept on one distance would be an authentication bypass.", "anchors": ["src/fpake.rs:HalfKey::garbler", "src/fpake.rs:HalfKey::evaluator"]}
{"id": "C46", "title": "fPAKE key agreement", "statement": "When the server runs garbler then evaluator and the client runs evaluator then garbler, and the distance is at most both thresholds, both derive the same Key; combine is commutative.", "quantifier": "all password pairs, thresholds, randomness, schedules", "why_tests_cant": "As above.", "anchors": ["src/main.rs:main", "src/fpake.rs:HalfKey::combine"]}
{"id": "C47", "title": "fPAKE works for every password length", "statement": "Equal passwords of any non-empty length lead to equal half-keys.", "quantifier": "all password lengths >= 1", "why_tests_cant": "The only length tested is 8 bytes; failures for 16..31 bytes depend on random labels.", "anchors": ["src/fpake.rs:HalfKey::garbler", "src/circuit.rs:build_circuit", "src/wires.rs:ops::Add for &Wire"]}
{"id": "C48", "title": "One-of-many fPAKE (mfpake) agreement", "statement": "If the server holds 2^d passwords of equal supported length and the client's password is within both thresholds of the password at its index, mfpake_many and mfpake_single return the same Key.", "quantifier": "all d, password lists, indices, masks, randomness, schedules", "why_tests_cant": "All lists, indices and randomness.", "anchors": ["src/many_fpake.rs:mfpake_many", "src/many_fpake.rs:mfpake_single"]}
{"id": "C49", "title": "One-of-many fPAKE half-keys depend only on the distance to the indexed password", "statement": "In mfpake each half-key pair agrees if the indexed password is within that garbler's threshold and otherwise differs, unless a SHA-256 collision is exhibited; the other passwords in the list are irrelevant.", "quantifier": "all lists, indices, masks", "why_tests_cant": "As above.", "anchors": ["src/many_fpake.rs:mfpake_many", "src/many_fpake.rs:mfpake_single"]}
{"id": "C50", "title": "The password mask is a perfect one-time pad", "statement": "For any two password lists' entries at an index there is a bijection of masks under which the client receives the same masked password.", "quantifier": "all passwords, all masks", "why_tests_cant": "Distributional statement.", "anchors": ["src/many_fpake.rs:mfpake_many"]}
{"id": "C51", "title": "One-of-many fPAKE v3 agreement", "statement": "garbler_server_v3/evaluator_client_v3 agree, and garbler_client_v3/evaluator_server_v3 agree, whenever the client's password is within the threshold of the indexed server password; the mask and masked password handed from the first half to the second are consistent.", "quantifier": "all lists, indices, thresholds, randomness, schedules", "why_tests_cant": "As above.", "anchors": ["src/many_fpake.rs:OneOfManyKey"]}
{"id": "C52", "title": "Legacy one-of-many fPAKE v1 and v2 agreement", "statement": "The deprecated v1 and v2 garbler/evaluator pairs agree whenever the client's password is within the threshold of the indexed server password, including v1's swapped input order and cancelling keys.", "quantifier": "all lists, indices, thresholds, randomness, schedules", "why_tests_cant": "As above.", "anchors": ["src/legacy_fpake.rs:OneOfManyKey"]}
{"id": "C53", "title": "Legacy v1 hides the client's index from the server", "statement": "The server running evaluator_server does not learn which password index the client used.", "quantifier": "all servers, all indices, all randomness", "why_tests_cant": "A statement about every computation on the server's view.", "anchors": ["src/legacy_fpake.rs:garbler_client", "src/legacy_fpake.rs:evaluator_server"]}
{"id": "C54", "title": "Authenticated channel delivers in order", "statement": "Messages sent on an auth channel whose two ends hold the same key are received unmodified and in order.", "quantifier": "all message sequences, keys and schedules", "why_tests_cant": "Unbounded sequences.", "anchors": ["src/common.rs:auth::AuthChannelSender", "src/common.rs:auth::AuthChannelReceiver"]}
{"id": "C55", "title": "Authenticated channel rejects modification", "statement": "If recv on an auth channel returns data from frames an attacker supplied, then the code frame is the HMAC of that data under the shared key; in particular data never authenticated by a key holder is accepted only with a forged MAC.", "quantifier": "all attacker frame sequences, all keys", "why_tests_cant": "Quantifies over attackers.", "anchors": ["src/common.rs:auth::AuthChannelReceiver::recv"]}
{"id": "C56", "title": "Authenticated channel rejects replay, reordering and reflection", "statement": "An attacker on the wire cannot make recv deliver a message twice, out of order, or deliver a party's own message back to it.", "quantifier": "all attackers that only record and re-send frames", "why_tests_cant": "Needs an attacker model.", "anchors": ["src/common.rs:auth::AuthChannelSender", "src/common.rs:auth::ChannelServer::next", "src/common.rs:auth::connect_channel"]}
{"id": "C57", "title": "Channel handshake agreement", "statement": "After an unattacked handshake, auth server and client hold the same key, and signed server and client hold each other's public keys.", "quantifier": "all ephemeral secrets, all schedules", "why_tests_cant": "All secrets and interleavings.", "anchors": ["src/common.rs:auth::ChannelServer::next", "src/common.rs:auth::connect_channel", "src/common.rs:signed"]}
{"id": "C58", "title": "Wire format round-trip", "statement": "Every message the protocols serialise (garbled circuits, wire vectors, OT properties, ciphertext vectors, bit matrices, polynomials) deserialises to the value that was serialised, whatever bytes follow.", "quantifier": "all values of these types with 64-bit lengths", "why_tests_cant": "Unbounded recursive data.", "anchors": ["src/garble.rs:GarbledCircuit", "src/wires.rs:Wire", "src/ot/common.rs:TransactionProperties", "src/ot/chou_orlandi.rs:EncryptedPayload"]}
{"id": "C59", "title": "A vanished peer never yields a key", "statement": "If the peer stops after any prefix of its messages, HalfKey::evaluator does not return Ok, and neither does any OT receiver; it returns an error or panics, never a half-key or payload.", "quantifier": "all crash points of an honest peer", "why_tests_cant": "Every message boundary is a crash point.", "anchors": ["src/fpake.rs:HalfKey::evaluator", "src/ot/apricot.rs", "src/ot/chou_orlandi.rs"]}
{"id": "C60", "title": "Message sizes above 65535 bytes transfer", "statement": "Apricot transfers messages of any size.", "quantifier": "all message sizes", "why_tests_cant": "Tests use 5 and 8 bytes.", "anchors": ["src/ot/apricot.rs:Sender::exchange (msg_size as u16)"]}
{"id": "C61", "title": "Apricot accepts any number of messages in release builds", "statement": "In release builds an honest Apricot run succeeds for every number of messages >= 1.", "quantifier": "all message counts, all bonus bits", "why_tests_cant": "Failure depends on the random bonus bits when the count is not a multiple of 8.", "anchors": ["src/ot/apricot.rs"]}
{"id": "C62", "title": "The key hash input is unambiguous", "statement": "The digest used as half-key by both sides is taken over the same byte string exactly when output wire number and output label coincide.", "quantifier": "all wire numbers and labels", "why_tests_cant": "All labels.", "anchors": ["src/fpake.rs:HalfKey", "src/wires.rs:hash", "src/util.rs:hash!"]}
{"id": "C63", "title": "decode rejects short label vectors", "statement": "The free function decode returns an error when it is given fewer labels than the circuit has outputs.", "quantifier": "all keys, all label vectors shorter than the key", "why_tests_cant": "Tests only decode complete evaluations.", "anchors": ["src/garble.rs:decode"]}
{"id": "C64", "title": "Hostile bytes only fail to decode", "statement": "Whatever bytes a peer sends, deserialising them as any of the protocol's message types yields a value or a decoding error; it never panics and never reads out of bounds.", "quantifier": "all byte strings, all message types", "why_tests_cant": "Space of byte strings is unbounded.", "anchors": ["src/fpake.rs", "src/ot/common.rs", "src/ot/chou_orlandi.rs", "src/ot/apricot_classic.rs"]}
{"id": "C65", "title": "Base OT hides the choices from any points", "statement": "Whatever curve points a malicious sender sends as its public keys, the reply of the Chou-Orlandi receiver does not reveal its choice bits.", "quantifier": "all points the peer may send, all secrets", "why_tests_cant": "The failing points (torsion) never occur in honest runs.", "anchors": ["src/ot/chou_orlandi.rs:Receiver::exchange"]}
{"id": "C66", "title": "Passwords of any length are compared", "statement": "For every password length in whole bytes, the key exchange gives both sides the same half key only if the passwords differ in at most threshold bits.", "quantifier": "all password lengths, passwords, thresholds, randomness", "why_tests_cant": "The bit count is cut to 16 bits, so the failing lengths start at 8192 bytes.", "anchors": ["src/fpake.rs:build_circuit", "src/fpake.rs:HalfKey::garbler", "src/fpake.rs:HalfKey::evaluator", "src/many_fpake.rs:build_circuit_v2"]}
{"id": "C67", "title": "Malformed frames are errors, not crashes", "statement": "Whatever frames a peer sends during a channel handshake or to recv, the call returns Ok or Err; it does not panic.", "quantifier": "all frames of the peer", "why_tests_cant": "Quantifies over hostile peers.", "anchors": ["src/common.rs:auth::ChannelServer::next", "src/common.rs:auth::connect_channel", "src/common.rs:signed::SignedChannelReceiver::recv"]}
{"id": "C68", "title": "The programs agree end to end", "statement": "The key-exchange program run in server mode and in client mode with passwords within the threshold print the same key, whatever the schedule: handshake, authenticated channel and both half keys together.", "quantifier": "all passwords within the threshold, secrets, randomness and schedules", "why_tests_cant": "Every component's interleavings multiply.", "anchors": ["src/main.rs:main", "src/common.rs:auth", "src/fpake.rs:HalfKey"]}
{"id": "C69", "title": "Typed bit strings are compared bit by bit", "statement": "For passwords typed as text of the characters 0 and 1, the distance compared with the threshold is the number of differing characters.", "quantifier": "all bit strings", "why_tests_cant": "Unbounded strings.", "anchors": ["src/main.rs:main", "src/util.rs:u8_vec_to_bool_vec"]}
{"id": "C70", "title": "The server's password size is a number of bits", "statement": "A server started with password_size equal to the number of bits of each password, as its option is documented, uses the passwords in its file.", "quantifier": "all files and sizes", "why_tests_cant": "No test runs the server program.", "anchors": ["src/server/main.rs:main"]}
{"id": "C71", "title": "The classic OT sender reads only what it was sent", "statement": "No sequence of messages from the receiver makes the sender of the classic OT extension read outside a received buffer.", "quantifier": "all peers, n, messages, architectures and build profiles", "why_tests_cant": "A test would have to play a dishonest peer and detect an out-of-bounds read of a few bytes.", "anchors": ["src/ot/apricot_classic.rs:correlation_check", "src/ot/polynomial.rs:gf128_mul_acc"]}
{"id": "C72", "title": "An OT receiver returns one message per choice", "statement": "Whatever the peer sends, an OT receiver that ends without an error returns as many messages as it made choices.", "quantifier": "all peers, choice counts and randomness", "why_tests_cant": "A test would have to play every dishonest peer.", "anchors": ["src/ot/apricot.rs:exchange", "src/ot/chou_orlandi.rs:exchange", "src/ot/apricot_classic.rs:exchange"]}
{"id": "C73", "title": "The base OT sender reveals its messages only under pads", "statement": "Whatever it receives, what the base OT sender sends depends on the messages only through the last frame, where each message is covered by a pad generated from the hash of a point; the two points of a pair are a.R and one that differs from it by a.A, where R is the received and A = a.B the sent point.", "quantifier": "all message lists, received frames, secrets, groups and generators", "why_tests_cant": "A test sees one transcript; independence from the messages relates all of them.", "anchors": ["src/ot/chou_orlandi.rs:Sender::exchange"]}
{"id": "C74", "title": "The OT extension senders reveal their messages only under pads", "statement": "Whatever they receive, what the senders of both OT extensions send depends on the messages only through the last frames, where each message is covered by a pad generated from the hash of its row number and a 16-byte key; the two keys of a row differ by the secret delta.", "quantifier": "all message lists, received frames, deltas, base OTs, core counts, architectures", "why_tests_cant": "Quantifies over all transcripts and hostile peers.", "anchors": ["src/ot/apricot.rs:Sender::exchange", "src/ot/apricot_classic.rs:Sender::de_rot"]}
{"id": "C75", "title": "1-of-n OT hides the messages that were not chosen", "statement": "For every index c and any two message lists that agree at c, the transcript of the sender with the first list is also its transcript with the second list under a generator that differs only on seeds derived from keys which a receiver of c does not get.", "quantifier": "all d up to 32, keys without coincidences, indices, message lists", "why_tests_cant": "2^d rows under d pads each; no test looks at what is not chosen.", "anchors": ["src/ot/one_of_many.rs:ManyOTSender::exchange", "src/ot/one_of_many.rs:fk"]}
{"id": "C76", "title": "Projection tables do not reveal the offset", "statement": "Without a label of the gate's input, the table of a projection gate tells nothing about the global offset of the output modulus.", "quantifier": "all circuits, offsets, coins, projection gates", "why_tests_cant": "Tests compare decoded outputs; none looks at the table entries.", "anchors": ["src/garble.rs:garble"]}
{"id": "C77", "title": "An evaluator with a wrong password does not learn the garbler's half key", "statement": "A peer whose password is further from the garbler's than the threshold cannot compute the garbler's half key, nor the distance, from the messages it receives.", "quantifier": "all passwords, guesses, thresholds, coins, evaluators", "why_tests_cant": "Needs an evaluator that deviates from the protocol; the tests run only the honest one.", "anchors": ["src/fpake.rs:HalfKey::garbler", "src/garble.rs:garble", "src/circuit.rs:build_circuit"]}
{"id": "C78", "title": "A peer without the password does not get the key", "statement": "Neither a deviating client nor a deviating server whose password is beyond the threshold ends with the key of the honest side.", "quantifier": "all passwords, guesses, thresholds, coins, peers", "why_tests_cant": "Needs a peer that deviates from the protocol.", "anchors": ["src/fpake.rs:HalfKey::garbler", "src/fpake.rs:HalfKey::evaluator", "src/main.rs:main"]}
{"id": "C79", "title": "In the one-of-many exchange a peer without a password does not get the key", "statement": "Neither a deviating client that knows none of the server's passwords nor a deviating server that does not know the client's ends with the key of the honest side.", "quantifier": "all password lists, indices, masks, guesses, thresholds, coins, peers", "why_tests_cant": "Needs a peer that deviates from the protocol.", "anchors": ["src/many_fpake.rs:mfpake_many", "src/many_fpake.rs:mfpake_single"]}
{"id": "C80", "title": "The frames do not tell the half key", "statement": "A half key is the hash of a 42-byte string, and no frame depends on hashes of 42-byte strings: replacing the hash function on such strings changes the half key and no frame. For good password lengths the string holds the garbler's label for 1 of the output wire.", "quantifier": "all hash functions, coins, passwords, thresholds, peers", "why_tests_cant": "Quantifies over hash functions and over everything a peer can send.", "anchors": ["src/fpake.rs:HalfKey::garbler", "src/fpake.rs:HalfKey::evaluator", "src/wires.rs:hash"]}
{"id": "C81", "title": "The frames of a session fit every key", "statement": "Unless the key is all zeros, changing the hash function at a single 42-byte string turns it into any chosen key without changing a frame; this holds for one side against any peer and for both sides of an honest session.", "quantifier": "all hash functions, keys, coins, passwords, thresholds, peers", "why_tests_cant": "Quantifies over hash functions and keys.", "anchors": ["src/fpake.rs:HalfKey", "src/many_fpake.rs:mfpake_many", "src/many_fpake.rs:mfpake_single", "src/main.rs:main"]}
{"id": "C82", "title": "The evaluator withstands the circuits a peer sends", "statement": "Evaluating a received circuit never reads uninitialised memory and never panics, whatever circuit, tables and labels the peer sends.", "quantifier": "all circuits, tables, labels, passwords, hash functions, OTs", "why_tests_cant": "Tests evaluate only circuits made by the crate's own builder; uninitialised reads may go unnoticed.", "anchors": ["src/garble.rs:evaluate", "src/fpake.rs:HalfKey::evaluator", "src/main.rs:main"]}
{"id": "C83", "title": "The field of the correlation check is a field", "statement": "x^128+x^7+x^2+x+1 is irreducible, so multiplication as computed by polynomial.rs has inverses and no zero divisors. Hence a receiver with a consistent matrix that sends sums other than the honest ones passes the check for at most one value of delta.", "quantifier": "all field elements, matrices, sums, deltas, coins, messages", "why_tests_cant": "Irreducibility of a polynomial of degree 128 and a statement about all 2^128 values of delta.", "anchors": ["src/ot/polynomial.rs:gf128_reduce", "src/ot/polynomial.rs:gf128_mul_acc", "src/ot/apricot.rs:Sender::exchange"]}
{"id": "C84", "title": "The OT extension hides the choices of its receiver", "statement": "Whatever a sender does in the KOS extension (any base OT choices, any frames), the frames that the receiver sends fit every list of choices of that length: there is a change of its 256 extra bits and of the generator's output on the seeds that the sender has not received under which a receiver with the other choices sends the same frames. The change does not depend on the bits, undoes itself, and leaves the generator alone wherever the sender can evaluate it, so the frames have the same distribution for all choices.", "quantifier": "all choice lists of a multiple of 8 bits, all frames of the sender, all base OT choices with distinct seeds, all generators for which the weights of the extra rows span", "why_tests_cant": "Hiding is a statement about all pairs of runs; a test sees one run and only its result.", "anchors": ["src/ot/apricot.rs:exchange", "src/ot/coinflip.rs:coinflip_sender"]}
{"id": "C85", "title": "The evaluator's half hides its secret", "statement": "Whatever the garbler does, the frames that HalfKey::evaluator sends fit every password of that length, and those of evaluator_server_v3 fit every mask: the evaluator with the other secret sends the same frames under a change of its random bits and of the generator on seeds unknown to the garbler.", "quantifier": "all passwords and masks of one length, all frames of the garbler, all generators for which the weights of the extra rows span", "why_tests_cant": "A test sees one run; it would have to compare the distributions of all runs for all pairs of passwords.", "anchors": ["src/fpake.rs:evaluator", "src/many_fpake.rs:evaluator_server_v3", "src/ot/apricot.rs:exchange"]}
{"id": "C86", "title": "The index of the one-of-many OT stays hidden", "statement": "The frames that ManyOTReceiver::exchange sends over the base OT fit every index, whatever the sender sends; so the server of the one-of-many exchange does not learn which of its passwords the client uses.", "quantifier": "all indices below the number of messages, all sequences of frames of the sender, all secrets of the receiver", "why_tests_cant": "A test runs an honest sender; the leak needs points outside the prime-order subgroup, and its absence is a statement about all secrets.", "anchors": ["src/ot/one_of_many.rs:exchange", "src/ot/chou_orlandi.rs:exchange", "src/many_fpake.rs:mfpake_single"]}
{"id": "C87", "title": "The OT extension gives at most one message of each pair", "statement": "Whatever u, x_sum and t_sum a receiver of the OT extension sends, it cannot compute both messages of the pairs from what it receives, even if it knows one message of some of the pairs already.", "quantifier": "all replies of the receiver that may depend on the coin flip, all deltas, all messages", "why_tests_cant": "A test has an honest receiver; the attack needs a system of 128 linear relations over GF(2^128) among the weights.", "anchors": ["src/ot/apricot.rs:exchange"]}
{"id": "C88", "title": "The weights of the extra rows span", "statement": "The weights that Apricot's check gives to the 256 extra rows generate all 128-bit numbers, but for at most one in 2^128 of all strings of weights; this is what makes the extra rows hide the choices.", "quantifier": "all strings of 16-byte weights, any multiple of 8 rows", "why_tests_cant": "The exceptions are too rare to be found by testing, and their number is a statement about 2^32768 strings.", "anchors": ["src/ot/apricot.rs:exchange"]}
{"id": "C89", "title": "The carried buffer of a worker is harmless", "statement": "A worker of the OT extension's sender reuses one buffer for all its rows; its ciphertexts are those of a worker with a fresh buffer per row, although the function that should clear the buffer does nothing.", "quantifier": "all matrices, offsets, messages, core counts and build profiles; all byte strings", "why_tests_cant": "A test with a few rows cannot tell a cleared buffer from one that is overwritten; whether stale bytes can show depends on the lengths of the rows.", "anchors": ["src/ot/apricot.rs:exchange", "src/ot/apricot.rs:zero_inplace", "src/ot/apricot.rs:unpack_bits_to_vec"]}
{"id": "C90", "title": "The type Polynomial is the field", "statement": "Adding polynomials in any of the three ways is addition in GF(2^128), multiply-and-add is linear and adds the product of the field, and the multiplication operators give the product.", "quantifier": "all 128-bit operands, all targets, both build profiles; all other lengths for the refutation", "why_tests_cant": "The laws range over 2^384 triples, and the operators that are todo!() are never called by a test.", "anchors": ["src/ot/polynomial.rs:Polynomial"]}
{"id": "C91", "title": "The channels keep a man in the middle out", "statement": "Somebody who controls the connection between the two programs cannot read along as an endpoint, replace messages, or run separate sessions with the two, without one of them noticing.", "quantifier": "all programs on the channel, all men in the middle, all keys", "why_tests_cant": "Quantifies over all adversaries on the connection; a test has no third party.", "anchors": ["src/common.rs:next", "src/common.rs:connect_channel", "src/main.rs:main"]}
{"id": "C92", "title": "Neither side can steer the coin flip", "statement": "A side that deviates from the coin flip protocol, and stays in it to the end or not, cannot influence the result that the other side accepts.", "quantifier": "all hash functions, all strategies of a receiver that picks its bytes after the commitment, all sets of results a sender may want to exclude", "why_tests_cant": "Quantifies over strategies; the bias of a sender that hangs up is invisible in runs that complete.", "anchors": ["src/ot/coinflip.rs:coinflip_sender", "src/ot/coinflip.rs:coinflip_receiver"]}
{"id": "C93", "title": "An evaluator learns nothing about the values on the wires", "statement": "An evaluator that holds one label per input wire and the garbled circuit learns no values of wires from them (other than the outputs, with the decoding key).", "quantifier": "all hash functions with 32-byte output, all circuits, all inputs, all garbler randomness, every projection gate", "why_tests_cant": "The labels and tables are random-looking in every run; the relation between a row and a value only shows when every garbling is considered at once.", "anchors": ["src/garble.rs:garble", "src/garble.rs:evaluate", "src/wires.rs:color"]}
{"id": "C94", "title": "A peer that follows the key exchange does not learn the other password", "statement": "A party that follows the protocol, and then computes anything it likes from the messages it received, learns nothing of the other party's password other than whether it is within the threshold.", "quantifier": "all hash functions with 32-byte output, all passwords and guesses of equal length, all thresholds, all randomness, any correct OT; the plain and both one-of-many key exchanges", "why_tests_cant": "Tests run honest programs, which do not look at the first rows of the tables; every run looks correct.", "anchors": ["src/fpake.rs:garbler", "src/fpake.rs:evaluator", "src/many_fpake.rs:mfpake_many", "src/many_fpake.rs:mfpake_single", "src/many_fpake.rs:garbler_server_v3", "src/many_fpake.rs:evaluator_client_v3", "src/many_fpake.rs:garbler_client_v3", "src/many_fpake.rs:evaluator_server_v3"]}
{"id": "C95", "title": "Garbled circuits without projections hide their inputs", "statement": "What the evaluator receives (garbled circuit, decoding key, labels of the inputs) is distributed identically for any two inputs with the same outputs, up to hash queries at labels it does not hold.", "quantifier": "all circuits of additions, constant multiples and AND gates over supported moduli, all pairs of inputs with equal outputs, all hash functions with 32-byte output, all samples for which no label of one input of an AND gate is also a label of its other input", "why_tests_cant": "Hiding compares two runs that never happen together; a test sees one world, and labels look random in every world.", "anchors": ["src/garble.rs:garble", "src/garble.rs:encode", "src/wires.rs:Add for &Wire", "src/wires.rs:color"]}
{"id": "C96", "title": "Malformed messages make the base OT return an error", "statement": "Whatever a peer sends during a base oblivious transfer, Sender::exchange and Receiver::exchange return Ok or Err; they do not panic.", "quantifier": "all frames of the peer, all messages and choices, both build profiles", "why_tests_cant": "Quantifies over hostile peers; honest test runs never send a frame of another length or a string that is not a point.", "anchors": ["src/ot/chou_orlandi.rs:Sender::exchange", "src/ot/chou_orlandi.rs:Receiver::exchange", "src/ot/common.rs:validate_properties"]}
{"id": "C97", "title": "Bit vectors have the size asked for, and their operators agree", "statement": "BitVector::zeros(n) and ones(n) have n bits; ^, &, ^= and &= work bit by bit, and the three forms of XOR give the same result; each row of BitMatrix::monochrome(choices, n) is the vector of choices.", "quantifier": "all sizes, all pairs of vectors, all lists of choices, both build profiles", "why_tests_cant": "The OT code only uses multiples of 8 and equal lengths, so its tests cannot see the difference.", "anchors": ["src/ot/bitmatrix.rs:BitVector::zeros", "src/ot/bitmatrix.rs:BitVector::ones", "src/ot/bitmatrix.rs:BitXor for BitVector", "src/ot/bitmatrix.rs:BitXorAssign for BitVector", "src/ot/bitmatrix.rs:monochrome"]}
{"id": "C98", "title": "Nothing can be transferred: exchanges of no messages and of empty messages succeed", "statement": "An honest exchange of n pairs of empty messages returns n empty messages, and an honest exchange of no messages returns no messages, for each of the OT protocols.", "quantifier": "all numbers of messages, all choices, all coins, all build profiles, architectures and core counts, every correct base OT", "why_tests_cant": "The tests transfer at least eight messages of at least one byte; the panics come from chunks_mut(0), index 0 of an empty vector and a division by the number of choices.", "anchors": ["src/ot/apricot.rs:Sender::exchange", "src/ot/apricot.rs:Receiver::exchange", "src/ot/apricot_classic.rs:Sender::exchange", "src/ot/chou_orlandi.rs:exchange"]}
{"id": "C99", "title": "A receiver with inconsistent choices is caught by the check of the classic extension", "statement": "A receiver of the classic OT extension whose matrix stands for different choices in different columns is rejected by the sender, whatever sums it sends.", "quantifier": "all matrices, all sums (as functions of the coin flip), all seeds, all delta, all weights, every correct base OT, all architectures and build profiles", "why_tests_cant": "The tests only run honest receivers. The statement is about all strategies of a dishonest one and about the fraction of the 2^128 values of delta.", "anchors": ["src/ot/apricot_classic.rs:correlation_check", "src/ot/apricot_classic.rs:cote"]}
{"id": "C100", "title": "No frame makes an oblivious transfer or an evaluator read outside of a buffer", "statement": "Whatever frames a peer sends, the receivers of the OT extensions and of the 1-of-2^n OT, the senders of the extensions, and the evaluators of the garbled circuits do not access memory outside of their buffers.", "quantifier": "all lists of frames of a peer, all private inputs and random values, all numbers of messages, all architectures and build profiles", "why_tests_cant": "Tests send frames of the right length. An out-of-bounds read through a raw pointer cannot be observed reliably by a test, and the frames range over all byte strings.", "anchors": ["src/ot/apricot.rs:Receiver::exchange", "src/ot/apricot.rs:Sender::exchange", "src/ot/apricot_classic.rs:Sender::exchange", "src/ot/one_of_many.rs:ManyOTReceiver::exchange", "src/many_fpake.rs:bytes_to_encoding", "src/fpake.rs:HalfKey::evaluator"]}
{"id": "C101", "title": "A circuit that is moved with offset computes the same function and can be evaluated", "statement": "CircuitBuilder::offset adds a number to every wire of a circuit. The moved gates compute the same function of the moved wires; the numbers of wires, inputs and outputs and the verdict of verify_circuit stay the same; and the moved circuit can be evaluated.", "quantifier": "all lists of gates, all numbers of inputs, all offsets, all contents of the wires", "why_tests_cant": "No test calls offset. That it preserves the function is a statement about all circuits and all offsets, and that the result cannot be evaluated shows only when the moved circuit is run on its own.", "anchors": ["src/circuit.rs:CircuitBuilder::offset", "src/circuit.rs:CircuitBuilder::build", "src/circuit.rs:Circuit::eval"]}
{"id": "C102", "title": "Labels of different moduli are never combined", "statement": "Adding or subtracting two wire labels of different moduli is rejected instead of returning a label.", "quantifier": "all pairs of moduli, all labels, both build profiles", "why_tests_cant": "The check is a debug assertion, so tests in debug builds see the panic, and release builds, which the protocol runs in, silently return a label; which one is returned depends on the order of the operands.", "anchors": ["src/wires.rs:Wire::map_with", "src/wires.rs:Wire::map_with_as_u16", "src/wires.rs:ops::Add", "src/wires.rs:ops::Sub"]}
{"id": "C103", "title": "Whether a session fails tells nothing about the password", "statement": "Whatever a peer sends, whether the evaluator of a half key fails does not depend on its password, so that a peer that watches sessions fail learns nothing.", "quantifier": "all pairs of passwords of the same length, all hostile garblers, any correct OT; the client and the server program", "why_tests_cant": "Tests garble the circuits of the crate, whose tables are complete. The failure is caused by a table with a missing row and depends on a secret bit.", "anchors": ["src/fpake.rs:HalfKey::evaluator", "src/garble.rs:evaluate", "src/main.rs:main"]}
{"id": "C104", "title": "Strings are exactly well-formed UTF-8", "statement": "The decoder of protocol names accepts a byte string exactly if it is the concatenation of the UTF-8 encodings of Unicode scalar values (no overlong forms, surrogates, cut sequences or code points over 10FFFF); a peer's offer with any other name ends the negotiation with a decoding error, and no two texts have the same bytes.", "quantifier": "all byte strings, all offers, all own properties", "why_tests_cant": "Tests send two ASCII names; the byte strings that are not text, and the corner code points, are never sent.", "anchors": ["src/ot/common.rs:TransactionProperties", "src/ot/common.rs:validate_properties"]}
{"id": "C105", "title": "The programs stay inside of their buffers, but for four known messages", "statement": "Whatever frames a peer sends to the programs over the authenticated channel, they read and write only inside of their buffers and only initialised wires, as long as four messages are long enough or well-formed: the seeds, u and x_sum of the OT extension, and the garbled circuit. No other message, and no missing or forged message, matters.", "quantifier": "all lists of frames on the wire, all passwords, thresholds, password files, random values, core counts, architectures and build profiles; main.rs as server and client, server/main.rs, client/main.rs", "why_tests_cant": "The frames range over all byte strings and all points at which a peer may stop or forge a code; memory errors need not be visible in a test.", "anchors": ["src/main.rs:main", "src/server/main.rs:main", "src/client/main.rs:main", "src/common.rs:AuthChannelReceiver::recv", "src/fpake.rs:HalfKey::garbler", "src/garble.rs:garble"]}
{"id": "C106", "title": "A frame has no second reading, but values have further frames", "statement": "A received frame is accepted as a value exactly if it begins with the encoding of this value: no other form of an integer, length, tag or name is accepted, and every accepted value is within the range of its type. Bytes after the value are ignored in every message, and a garbled circuit may carry several tables for a gate, of which the last counts.", "quantifier": "all byte strings, for protocol properties, OT payloads, wires, matrices, byte vectors, circuits and garbled circuits", "why_tests_cant": "Tests decode what the code itself has encoded; the statement is about all byte strings that a peer may send.", "anchors": ["src/ot/common.rs:properties handshake (15)", "src/ot/chou_orlandi.rs:ObliviousReceiver::receive (155)", "src/fpake.rs:HalfKey::evaluator (81-83)", "src/ot/apricot_classic.rs:setup (69)", "src/garble.rs:GarbledCircuit (288-293)"]}
{"id": "C107", "title": "The sizes of the messages depend on the length of the password alone", "statement": "Whatever its peer sends, a program sends frames whose sizes are, in order, those of a list computed from the length of the password (for the one-of-many programs also from the number of passwords): the bits of the password, the randomness, the messages received, the number of cores and the build do not matter. A program that fails stops somewhere in the list, one that prints a key has sent all of it. The length itself does show. The one-of-many client takes the length from the size of the server's first message.", "quantifier": "all passwords of the supported lengths, all randomness, all frames of the peer, both roles of the programs main, server and client, both sides of the three versions of OneOfManyKey", "why_tests_cant": "Tests run honest parties and look at keys only; the statement is about the traffic for all passwords and against all peers.", "anchors": ["src/main.rs:main (28-52)", "src/server/main.rs:main (28-47)", "src/client/main.rs:main (29-37)", "src/fpake.rs:HalfKey::garbler (26-59)", "src/ot/apricot.rs:Sender::exchange (29-233)", "src/garble.rs:GarbledCircuit (288-293)"]}
{"id": "C108", "title": "The memory an evaluator reserves is bounded by what it has received", "statement": "The memory that evaluate reserves for the wires of a received garbled circuit is at most proportional to the size of the frame that carried the circuit, and reserving it does not panic.", "quantifier": "all frames of the peer, all labels from the oblivious transfer, both build profiles, any size of a wire in memory", "why_tests_cant": "The tests evaluate circuits of the program's own garbler only; the number of wires is a 64-bit field of the frame.", "anchors": ["src/garble.rs:evaluate (295-304)", "src/fpake.rs:HalfKey::evaluator (77-89)", "src/circuit.rs:verify_circuit (195-222)"]}
{"id": "C109", "title": "Who sends when is fixed, and two parties never wait for each other", "statement": "Each program sends and receives in one fixed order that does not depend on the password, its length, the threshold, the randomness or anything it receives, and stops early only when it fails; two connected programs never both wait, so every session ends.", "quantifier": "all passwords (also of different lengths), thresholds, password files, randomness, peers' frames, schedules of the two parties, builds, machines, hash functions and curves; in the one-of-many programs both sides with the same number of index bits", "why_tests_cant": "A test that deadlocks under some other schedule, or for some other input, just passes when it does not; the order of all messages for every input cannot be run.", "anchors": ["src/main.rs:main (28-52)", "src/server/main.rs:main (28-47)", "src/client/main.rs:main (29-37)", "src/fpake.rs:HalfKey (26-99)", "src/many_fpake.rs:mfpake_many, mfpake_single, *_v3 (38-512)", "src/ot/apricot.rs", "src/ot/chou_orlandi.rs", "src/ot/one_of_many.rs", "src/common.rs:auth"]}
{"id": "C110", "title": "In the third version a peer without a password does not get the key", "statement": "Neither a deviating client that knows none of the server's passwords nor a deviating server that does not know the client's ends a session of the third version with the key of the honest side, or learns how far its guess was from the password.", "quantifier": "all password lists, indices, masks, guesses, thresholds, coins, peers", "why_tests_cant": "Needs a peer that deviates from the protocol.", "anchors": ["src/many_fpake.rs:garbler_server_v3, evaluator_client_v3, garbler_client_v3, evaluator_server_v3 (64-421)", "src/circuit.rs:build_circuit_v2", "src/garble.rs:garble (197-225)"]}
{"id": "C111", "title": "A session tests at most one password", "statement": "Whatever a peer sends, it cannot arrange that the key of the honest side is a function of the honest password which the peer can compute for every candidate; a session with the honest side, and its key, tell about one guess only.", "quantifier": "all passwords, guesses, thresholds, coins, peers; dictionaries of any size", "why_tests_cant": "Needs a peer that deviates from the protocol, and a search over all passwords.", "anchors": ["src/fpake.rs:HalfKey::evaluator (61-95)", "src/fpake.rs:HalfKey::garbler (26-59)", "src/garble.rs:evaluate (295-352)"]}
{"id": "C112", "title": "Neither side alone decides what the key is", "statement": "The key is the sum of two half keys, one garbled by each side; whatever one side sends, it cannot make the other side's key a value it fixed beforehand.", "quantifier": "all passwords, guesses, thresholds, coins, peers; all labels and wire numbers", "why_tests_cant": "Needs a peer that deviates from the protocol and that uses the first half of the session in the second.", "anchors": ["src/fpake.rs:HalfKey::evaluator (61-95)", "src/fpake.rs:combine (97-99)", "src/main.rs (31-51)"]}
{"id": "C113", "title": "No length of password makes every password right", "statement": "For passwords of any length, two passwords that are further apart than the threshold do not lead to the same key, and the half key cannot be computed from the garbled circuit alone.", "quantifier": "all passwords of a whole number of blocks of 8192 bytes, thresholds, coins, labels; both profiles", "why_tests_cant": "Needs passwords of exactly a multiple of 65536 bits; the benchmark of the circuit does use that size, but it never looks at the output.", "anchors": ["src/circuit.rs:build_circuit (220-271)", "src/wires.rs:Domain::new (35-51)", "src/fpake.rs:HalfKey (26-95)", "benches/garble.rs (8-41)"]}
{"id": "C114", "title": "Sides with the same key have seen the same frames", "statement": "If both sides of a key exchange end with the same key, every frame that one of them received is the frame the other one sent: whoever alters a frame on its way makes the exchange fail or the keys differ.", "quantifier": "all runs that end with a key, all peers, passwords, thresholds, coins; all appended byte strings", "why_tests_cant": "A test without an attacker on the channel never sees a frame other than the one sent; here every run and every appended string is covered.", "anchors": ["src/fpake.rs:HalfKey::evaluator (61-95)", "src/many_fpake.rs:evaluator_client_v3, evaluator_server_v3, mfpake_single, mfpake_many", "src/legacy_fpake.rs:evaluators", "src/common.rs:Sender, Receiver (20-40)"]}
{"id": "C115", "title": "The greatest threshold lets every password pass", "statement": "A threshold is a number of bits: the greatest threshold there is, 65535, is above every distance between two passwords, so that with it the two sides get the same key whatever their passwords of the same length are.", "quantifier": "all passwords of workable lengths, garbling coins, correct oblivious transfers, both build profiles", "why_tests_cant": "A test with the greatest threshold would have to be thought of; here every password and every garbler is covered, in both profiles.", "anchors": ["src/circuit.rs:build_circuit (258), build_circuit_v2 (312)", "src/fpake.rs:HalfKey::garbler (26-59)", "src/many_fpake.rs:garbler_server_v3, garbler_client_v3", "src/legacy_fpake.rs:garblers"]}
{"id": "C116", "title": "Passwords of different lengths never give a key", "statement": "If the client's password does not have the length of the password it is compared with, no key comes about: both sides end with an error (and neither crashes).", "quantifier": "all passwords and lists of passwords of any lengths, thresholds, coins, base OTs, build profiles", "why_tests_cant": "The tests use passwords of one length only; here the lengths, and the bytes after the common length, are arbitrary.", "anchors": ["src/fpake.rs:HalfKey::garbler, HalfKey::evaluator", "src/many_fpake.rs:mfpake_single (434-466), mfpake_many (470-512), garbler_server_v3, evaluator_client_v3", "src/util.rs:xor_bytes_inplace (109-115)", "src/ot/common.rs:validate_properties"]}
{"id": "C117", "title": "A session of the one-of-many exchange tests at most one password, and neither side alone decides its key", "statement": "In the exchange with a list of passwords, as in plain fPAKE: a peer that knows none of the passwords learns from a session and its key about one guess only, and no peer can make the honest side's key a value fixed beforehand.", "quantifier": "all lists of 2^d passwords, masks, indices, guesses, thresholds, coins, build profiles; dictionaries of any size", "why_tests_cant": "The tests run both honest programs; the attackers here are other programs, and the search runs over every dictionary.", "anchors": ["src/many_fpake.rs:mfpake_single (434-466), mfpake_many (470-512)", "src/fpake.rs:HalfKey::garbler, HalfKey::evaluator, combine_keys", "src/garble.rs:garble, encode"]}
{"id": "C118", "title": "Sides that count the passwords differently get no key", "statement": "If the client believes the list to have another number of passwords than the server's list has, no key comes about: both sides end with an error.", "quantifier": "all lists of 2^d passwords, all numbers below 2^32, indices, masks, thresholds, coins, core counts, build profiles; the version with masks and the third version", "why_tests_cant": "The tests pass the same number to both sides; here the client's number is arbitrary.", "anchors": ["src/many_fpake.rs:mfpake_single (434-466), mfpake_many (470-512), garbler_server_v3, evaluator_client_v3", "src/ot/one_of_many.rs:ManyOTSender::exchange, ManyOTReceiver::exchange", "src/ot/common.rs:validate_properties", "src/util.rs:log2"]}
{"id": "C119", "title": "Two programs started in the same role end with an error", "statement": "If two servers, or two clients, are connected with each other (by a relay, say), they notice it and end with an error; no party waits forever.", "quantifier": "all passwords, secrets, thresholds, coins, schedules, build profiles", "why_tests_cant": "The tests connect a server with a client; waiting forever is not an outcome a test can report, and the schedules are unbounded in number.", "anchors": ["src/main.rs:main", "src/client/main.rs:main", "src/common.rs:auth::ChannelServer::next, auth::connect_channel", "src/ot/apricot.rs:Sender::exchange", "src/ot/coinflip.rs:coinflip_receiver", "src/many_fpake.rs:evaluator_client_v3"]}
{"id": "C120", "title": "Sessions do not depend on the room in the transport", "statement": "A session over a transport that holds only a few bytes per direction (a send waits while there is no room and the peer is not reading) comes to an end just as over an unlimited one, however large the messages are: the two sides never wait for each other to read.", "quantifier": "all rooms b, framings h, passwords (also of different lengths), thresholds, coins, schedules, build profiles, numbers of passwords", "why_tests_cant": "The in-memory channels of the tests are unlimited, and on a local TCP connection the socket buffers hide the case; whether some schedule clogs is a question about all schedules.", "anchors": ["src/common.rs:raw, auth", "src/main.rs:main", "src/server/main.rs:main", "src/client/main.rs:main", "src/many_fpake.rs:garbler_server_v3 etc.", "src/ot/common.rs:validate_properties"]}
{"id": "C121", "title": "A session of the third version tests at most one password, and neither side alone decides its key", "statement": "In the third version of the one-of-many exchange, as in plain fPAKE: a peer that knows none of the passwords learns from a session and its key about one guess only, and no peer can make the honest side's key a value fixed beforehand.", "quantifier": "all lists of 2^d passwords, masks, indices, guesses, thresholds, coins, build profiles; dictionaries of any size", "why_tests_cant": "The tests run the two honest roles against each other; what a peer with a circuit and labels of its own can bring about is a question about programs that are not in the repository.", "anchors": ["src/many_fpake.rs:garbler_server_v3", "src/many_fpake.rs:evaluator_client_v3", "src/many_fpake.rs:garbler_client_v3", "src/many_fpake.rs:evaluator_server_v3"]}
{"id": "C122", "title": "The key of an authenticated channel depends on both ends", "statement": "The key of an authenticated channel comes from both ephemeral secrets: neither a peer nor somebody between the two programs can bring about a channel key fixed beforehand.", "quantifier": "all secrets, all programs on the channel, all peers and men in the middle", "why_tests_cant": "The module is not tested (see its TODO), and honest key pairs never produce the public keys for which the shared secret is constant.", "anchors": ["src/common.rs:auth::ChannelServer::next", "src/common.rs:auth::connect_channel", "src/main.rs:main"]}
{"id": "C123", "title": "Which sessions fail tells nothing about the passwords of a one-of-many exchange", "statement": "Whatever a client sends to a one-of-many server, and whatever a server sends to a client of the third version, whether the session fails does not depend on the passwords; in particular the server's fresh random mask hides its passwords from a client that watches sessions fail.", "quantifier": "all lists of 2^d passwords, a new mask and new labels for each session, all indices, guesses, thresholds, positions, build profiles; any correct OT and 1-of-n OT", "why_tests_cant": "The tests contain honest peers only, for which no session fails; that the failures of several sessions with different masks add up to a password is a statement about all masks.", "anchors": ["src/many_fpake.rs:mfpake_many", "src/many_fpake.rs:evaluator_server_v3", "src/many_fpake.rs:evaluator_client_v3", "src/server/main.rs"]}
{"id": "C124", "title": "The OT extension's receiver answers malformed messages with an error", "statement": "Whatever frames the peer sends, the receiver of the OT extension over the base OT returns messages only if the last frame holds as many bytes as the announced size requires, and otherwise an error; it never panics. Both roles of the coin flip end with a value exactly for an array of the right length that fits the commitment and with an error otherwise.", "quantifier": "all sequences of frames of any length, all numbers of choices (multiples of 8 in debug builds), all random values, build profiles, architectures and thread counts; any hash of 32 bytes, generator and curve", "why_tests_cant": "The tests run the receiver with the project's own sender only; the frames a peer may send, their number and their lengths are not bounded.", "anchors": ["src/ot/apricot.rs:Receiver::exchange", "src/ot/coinflip.rs:coinflip_sender", "src/ot/coinflip.rs:coinflip_receiver"]}
{"id": "C125", "title": "Programs that do not belong together get no key", "statement": "The server of main.rs connected to client/main.rs, and server/main.rs connected to the client of main.rs, never print a key, whatever they were given, under every schedule and however the connection closes. A program that gets back its own frames, from its own public key on, never prints a key either: a server with a password of a supported length and a client wait forever.", "quantifier": "all passwords, files, sizes, indices, thresholds, random values, build profiles, architectures and thread counts; all schedules of any length; any Diffie-Hellman function, hash, code, generator and curve", "why_tests_cant": "The programs are only ever tested with their counterpart, if at all; the values and schedules are not bounded.", "anchors": ["src/main.rs:main", "src/server/main.rs:main", "src/client/main.rs:main", "src/common.rs:auth"]}
{"id": "C126", "title": "A listener does not learn the threshold", "statement": "Someone who only sees the frames on the wire, and takes no part in the exchange, cannot tell the threshold a party was started with.", "quantifier": "all passwords, thresholds up to 65534, garblings, oblivious transfers (honest or not), hashes, Diffie-Hellman functions, message authentication codes, peers and build profiles", "why_tests_cant": "A test compares the keys of two parties; that every run whatsoever, with every peer, contains a frame from which the threshold can be read is a statement about all runs.", "anchors": ["src/fpake.rs:HalfKey::garbler", "src/many_fpake.rs:garbler_server_v3", "src/many_fpake.rs:garbler_client_v3", "src/circuit.rs:build_circuit", "src/main.rs:main"]}
{"id": "C127", "title": "Sides that run different versions of the one-of-many exchange", "statement": "When the server and the client of the one-of-many exchange run different versions (first, second or third) with lists of at least two passwords, neither side ever ends with a key, under every schedule and however the connection closes.", "quantifier": "all hashes with 32-byte values, generators, curves, garblings, random values, password lists of length 2^d (1 <= d <= 31) with a fitting number of threads, supported lengths, masks, indices, thresholds up to 65534, build profiles, architectures; all schedules of any length", "why_tests_cant": "The tests only ever connect sides of the same version; there are six pairs of versions, unbounded values, and arbitrarily many schedules, and a session that hangs cannot be told from a slow one by a test.", "anchors": ["src/legacy_fpake.rs:OneOfManyKey", "src/many_fpake.rs:OneOfManyKey", "src/ot/one_of_many.rs:Sender", "src/ot/chou_orlandi.rs:Sender"]}
{"id": "C128", "title": "The benchmarks measure runs that succeed", "statement": "In every run of the benchmarks of the key exchanges and of the 1-out-of-n OT both threads end without an error or undefined behaviour, the two sides get the same key, and the receiver gets the message it chose.", "quantifier": "all hashes with 32-byte values, generators, curves, garblings, random values, correct OTs, numbers of cores; every size the benchmarks go through", "why_tests_cant": "The benchmarks are the only place where these sizes are run, and they compare no results: two threads that end with different keys look like a success, and what happens depends on the machine's number of cores and on the random labels.", "anchors": ["benches/fpake.rs:fpake", "benches/fpake.rs:bench_fpake", "benches/one_of_many.rs:log2", "benches/one_of_many.rs:one_of_many_chou_orlandi", "benches/many_fpake.rs:bench_fpake_one_of_many"]}
{"id": "C129", "title": "Release builds always end with a key", "statement": "A release build garbles the distance circuit of every size, encodes every input and evaluates it without a panic or undefined behaviour, and an exchange between two release builds ends with a 32-byte key on each side, whatever the length of the passwords and whatever the thresholds.", "quantifier": "all hashes with 32-byte values, garblings with whatever samples, correct OTs, circuits whose gates fit (also with unsupported moduli), inputs, passwords of equal length, thresholds", "why_tests_cant": "Only a few moduli are ever tried, and the debug builds of the tests panic for many of those for which a release build goes on; whether it goes on for all of them cannot be found by running it.", "anchors": ["src/garble.rs:garble", "src/garble.rs:encode", "src/garble.rs:evaluate", "src/wires.rs:map_with_as_u16", "src/circuit.rs:build_circuit", "src/fpake.rs:garbler", "src/fpake.rs:evaluator"]}
{"id": "C130", "title": "The benchmarks of garbling and of the 1-out-of-2 OTs run to their end at every size", "statement": "For every size in their loops, the garbling benchmark builds, garbles, encodes and evaluates its circuit without a panic, and the benchmarks of Apricot, of the classic extension and of the base OT end on both threads, the receiver holding the first label of every pair.", "quantifier": "all hashes with 32-byte values, generators, curves, random choices, garblings with whatever samples, numbers of cores, profiles of the OTs, sizes 2^1..2^16 for garbling, 2^3..2^20 for the extensions, 2^1..2^18 for the base OT", "why_tests_cant": "The benchmarks throw the received labels away, so that they would not notice wrong ones; a run is for one choice of the randomness, and the sizes reach over the 16 bits that the modulus of the circuit has room for.", "anchors": ["benches/garble.rs:bench_garble_eval", "benches/apricot.rs:bench", "benches/apricot.rs:run_ot", "benches/apricot_classic.rs:bench", "benches/apricot_classic.rs:run_ot", "benches/chou_orlandi.rs:bench", "benches/chou_orlandi.rs:run_ot"]}
{"id": "C131", "title": "Release builds of the one-of-many exchange always end with a key", "statement": "An exchange between two release builds of the one-of-many protocol, in each of its three versions and as mfpake_many and mfpake_single, ends with a 32-byte key on each side, whatever the length of the passwords, the thresholds and the distance between the passwords.", "quantifier": "all hashes with 32-byte values, garblings with whatever samples, correct OTs and 1-out-of-n OTs, lists of 2^d passwords of equal length (d >= 1 in the first version), indices within the list, masks, thresholds", "why_tests_cant": "The tests use one length of passwords; with most others a debug build panics because of an unsupported modulus or an overflowing threshold, and only a proof over all lengths shows that a release build never stops, so that nothing in the outcome tells a key that was agreed on from one that was not.", "anchors": ["src/many_fpake.rs:garbler_server_v3", "src/many_fpake.rs:evaluator_client_v3", "src/many_fpake.rs:garbler_client_v3", "src/many_fpake.rs:evaluator_server_v3", "src/legacy_fpake.rs:garbler_server", "src/legacy_fpake.rs:evaluator_client", "src/legacy_fpake.rs:garbler_client_v2", "src/legacy_fpake.rs:evaluator_server_v2", "src/circuit.rs:build_circuit_v2"]}
{"id": "C132", "title": "What a debug build does without a panic, a release build does as well", "statement": "Every function and every protocol of the crate that depends on the build profile is such that a run of the debug build that does not panic is also a run of the release build, with the same result, the same frames sent and the same errors; a session in which nobody panics, between builds of whatever kind, ends with the same results between two release builds.", "quantifier": "all circuits, inputs, labels, frames sent by the peer, passwords, thresholds, indices, random choices, hashes, generators, curves, architectures and core counts", "why_tests_cant": "Tests are run in debug builds, where overflow checks and debug assertions are on; the programs are meant to be run as release builds. That the passing tests say anything about those needs an argument about all the places where the two kinds of builds differ.", "anchors": ["src/circuit.rs:build_circuit", "src/garble.rs:garble", "src/garble.rs:evaluate", "src/wires.rs:Wire", "src/util.rs:xor_bytes", "src/ot/apricot.rs:exchange", "src/ot/apricot_classic.rs:exchange", "src/ot/chou_orlandi.rs:exchange", "src/ot/one_of_many.rs:exchange", "src/fpake.rs:garbler", "src/many_fpake.rs:mfpake_many", "src/legacy_fpake.rs:garbler_server", "src/main.rs:main"]}
{"id": "C133", "title": "What a party sends and returns depends on neither its processor nor its number of cores", "statement": "The two implementations of the multiplication in the OT extension agree on strings of any length, the workers do what one loop over the rows does even where a row fails, and so every exchange and both programs send the same frames and end the same way on x86 and on arm64 and for any two numbers of cores, against any peer; sessions between machines of any kind end in the same ways. Where the one-out-of-many OT is used, the numbers of cores of the server have to be powers of two.", "quantifier": "all frames sent by the peer, messages, choices, passwords, thresholds, indices, random choices, hashes, curves, build profiles, architectures and core counts of either side", "why_tests_cant": "A test runs on one machine with one processor and one number of cores, and with an honest peer; a difference would show up between machines or with malformed frames.", "anchors": ["src/ot/apricot.rs:polynomial_mul_acc", "src/ot/apricot.rs:pick_suitable_thread_count", "src/ot/apricot.rs:exchange", "src/ot/one_of_many.rs:exchange", "src/fpake.rs:garbler", "src/many_fpake.rs:mfpake_many", "src/legacy_fpake.rs:garbler_server", "src/main.rs:main"]}
{"id": "C134", "title": "Two honest sides get the same key in exactly these four cases", "statement": "Let e be the distance between the client's password and the server's entry, t and t' the thresholds of the server and of the client. The keys of an honest session agree exactly if e is within both thresholds, or within t only and the digests of the client's two output labels are equal, or within t' only and the digests of the server's two output labels are equal, or beyond both and the XOR of the server's two digests equals the XOR of the client's. This holds for the plain exchange, mfpake, version 3, both older versions and their mixtures. In particular, if both sides draw the same randomness for garbling and use the same threshold, a password that is too far for both still gives both sides the same key, so that distant passwords lead to different keys whatever the randomness is false.", "quantifier": "all passwords, lists, indices, thresholds, masks, garbling randomness, correct OTs, hashes with 32-byte digests and build profiles", "why_tests_cant": "Deciding equality of the keys in every case needs the labels of all garblings; a test draws fresh randomness and so never sees the last case.", "anchors": ["src/fpake.rs:garbler", "src/fpake.rs:evaluator", "src/many_fpake.rs:mfpake_many", "src/many_fpake.rs:mfpake_single", "src/many_fpake.rs:garbler_server_v3", "src/legacy_fpake.rs:garbler_server"]}
{"id": "C135", "title": "The one-out-of-many OT answers malformed messages with an error", "statement": "Whatever frames a peer sends, both sides of the one-out-of-many OT over the base OT return a value only if the peer agrees to as many pairs as the index has bits, sends that many points and (to the receiver) one pair of ciphertexts for each bit; otherwise they return an error and never panic. The message returned has the 2^d-th part of the length of the first frame.", "quantifier": "all frames of the peer, indices of up to 32 bits, messages, keys, random choices, hashes, curves, fitting core counts and both build profiles", "why_tests_cant": "Tests use an honest peer; the endings for all malformed conversations cannot be enumerated.", "anchors": ["src/ot/one_of_many.rs:exchange", "src/ot/chou_orlandi.rs:exchange"]}
{"id": "C136", "title": "Sides of the older versions that count the passwords differently get no key", "statement": "In the first and second version of the one-of-many fPAKE and in their mixtures, a client that believes the list to have another number of passwords than the server's list has gets no key: both sides end with an error.", "quantifier": "all lists of 2^d passwords, all numbers from 2 to 2^32, indices, masks, thresholds, coins, base OTs, core counts and build profiles; versions 1, 2, 1 with 2 and 2 with 1", "why_tests_cant": "The tests pass the same number to both sides; here the client's number is arbitrary.", "anchors": ["src/legacy_fpake.rs:garbler_server", "src/legacy_fpake.rs:evaluator_client", "src/legacy_fpake.rs:garbler_client", "src/legacy_fpake.rs:evaluator_server", "src/ot/common.rs:validate_properties", "src/util.rs:log2"]}
{"id": "C137", "title": "The classic OT extension's receiver answers malformed messages with an error", "statement": "Whatever frames a peer sends, the receiver of the classic OT extension over the base OT returns one message for each choice or an error, and never panics. It returns a value only if the peer agrees to both transfers, sends 128 points, 32 bytes for the coin flip and two lists of one ciphertext for each choice.", "quantifier": "all frames of the peer, choices, random choices, hashes, curves, processors and both build profiles", "why_tests_cant": "Tests use an honest peer; the endings for all malformed conversations cannot be enumerated.", "anchors": ["src/ot/apricot_classic.rs:exchange", "src/ot/apricot_classic.rs:cote", "src/ot/apricot_classic.rs:correlation_check", "src/ot/apricot_classic.rs:de_rot"]}
{"id": "C138", "title": "Passwords of different lengths never give a key in the older versions", "statement": "In the first and second version of the one-of-many fPAKE and in their mixtures, passwords of different lengths never give a key, whether the client's password or one in the server's list differs in length from the first of the list.", "quantifier": "all passwords, lists, indices, thresholds, masks, randomness, base OTs, core counts, builds; versions 1, 2, 1 with 2 and 2 with 1; for the server alone, all frames of the peer", "why_tests_cant": "Tests use equal lengths; every pair of lengths and every list has to be treated.", "anchors": ["src/legacy_fpake.rs:garbler_server", "src/legacy_fpake.rs:evaluator_client", "src/legacy_fpake.rs:garbler_server_v2", "src/legacy_fpake.rs:evaluator_client_v2", "src/legacy_fpake.rs:evaluator_server", "src/legacy_fpake.rs:evaluator_server_v2", "src/ot/common.rs:validate_properties"]}
{"id": "C139", "title": "Leaving rows out of the matrix tells the receiver nothing about delta", "statement": "The sender of the classic OT extension treats a matrix with missing rows in the same way whatever its secret delta is, so that a receiver that leaves rows out does not learn bits of delta by it.", "quantifier": "all numbers of rows sent, deltas, messages, choices, coins, base OTs, processors and build profiles", "why_tests_cant": "Tests use honest receivers; the statement compares all values of delta.", "anchors": ["src/ot/apricot_classic.rs:cote", "src/ot/apricot_classic.rs:exchange"]}
{"id": "C140", "title": "The classic OT extension hides the choices of its receiver", "statement": "What the receiver of the classic OT extension sends does not depend on its choices: whatever frames a malicious sender sends, for any two lists of choices there is a change of the receiver's extra bits and of the generator on the seeds that the sender did not choose, independent of both, under which the receiver sends the same frames.", "quantifier": "all choices of a length divisible by eight, seeds, base choices of the sender, frames of the sender, extra bits, generators, coins, processors and build profiles, if the weights of the 192 extra rows span", "why_tests_cant": "Secrecy against an arbitrary sender is a statement about the distribution of the frames over all coins and generators; no run of the code can show it.", "anchors": ["src/ot/apricot_classic.rs:cote", "src/ot/apricot_classic.rs:exchange"]}
{"id": "C141", "title": "The classic OT extension does the same on every processor", "statement": "What a party of the classic OT extension sends and how it ends depends on the frames it receives, its input and its coins, but not on its processor, although polynomial.rs has three different multiplications.", "quantifier": "all frames, inputs, coins, base OTs, build profiles and pairs of processors (x86, ARM64, others)", "why_tests_cant": "A test runs on one processor; the multiplications are selected at compile time, and the statement quantifies over malformed frames.", "anchors": ["src/ot/apricot_classic.rs:correlation_check", "src/ot/apricot_classic.rs:exchange", "src/ot/polynomial.rs:gf128_mul_acc"]}
{"id": "C142", "title": "The classic OT extension has a fixed order and fixed sizes of messages", "statement": "In the classic OT extension the order in which a party sends and receives is fixed, whatever it is sent; a receiver and a sender never wait for each other, whatever their inputs; and the sizes of the frames follow from the number of choices, and the number and length of the messages, alone.", "quantifier": "all frames received, inputs, coins, build profiles, processors and schedules", "why_tests_cant": "A test runs one schedule with an honest peer and never looks at the frames; a deadlock or a size that depends on a choice bit shows only under particular inputs and malformed frames.", "anchors": ["src/ot/apricot_classic.rs:exchange", "src/ot/apricot_classic.rs:cote", "src/ot/apricot_classic.rs:correlation_check", "src/ot/apricot_classic.rs:de_rot"]}
{"id": "C143", "title": "The two OT extensions never complete with each other", "statement": "apricot.rs and apricot_classic.rs announce themselves by the same protocol name, but a party of one that meets a party of the other never ends with a result, and neither does its peer.", "quantifier": "all inputs, coins, hash functions with 32-byte digests, build profiles, processors and schedules, with the channel closing whenever it may", "why_tests_cant": "No test connects the two modules; the property check does not tell them apart, and the outcome must hold for all coins and digests that happen to look like properties.", "anchors": ["src/ot/apricot_classic.rs:exchange", "src/ot/apricot.rs:exchange", "src/ot/common.rs:validate_properties", "src/ot/coinflip.rs:coinflip_sender"]}
