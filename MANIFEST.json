{
 "claims": [
  {
   "property": "C01",
   "status": "proved",
   "theorems": [
    "C01_log2_ceiling",
    "C01_log2_zero_panics",
    "C01_log2_zero_release"
   ],
   "note": ""
  },
  {
   "property": "C02",
   "status": "proved",
   "theorems": [
    "C02_unpack_bits",
    "C02_repack_lsb_first"
   ],
   "note": ""
  },
  {
   "property": "C03",
   "status": "proved",
   "theorems": [
    "C03_repack_inverse_refuted",
    "C03_repack_reverses_bits"
   ],
   "note": "The property is false: the repacking reverses the bits of every byte. The refutation and the exact behaviour are proved."
  },
  {
   "property": "C04",
   "status": "proved",
   "theorems": [
    "C04_xor_helpers",
    "C04_mask_twice",
    "C04_length_mismatch"
   ],
   "note": ""
  },
  {
   "property": "C05",
   "status": "proved",
   "theorems": [
    "C05_domain_round_trip"
   ],
   "note": ""
  },
  {
   "property": "C06",
   "status": "proved",
   "theorems": [
    "C06_arithmetic",
    "C06_group_laws",
    "C06_scalar_laws"
   ],
   "note": ""
  },
  {
   "property": "C07",
   "status": "proved",
   "theorems": [
    "C07_add_every_modulus_refuted"
   ],
   "note": "False: refuted for every modulus in 129..254 and 32769..65534."
  },
  {
   "property": "C08",
   "status": "proved",
   "theorems": [
    "C08_negation_inverse_except_2",
    "C08_negation_inverse_refuted",
    "C08_negation_inverse_exactly"
   ],
   "note": "False for modulus 2 (bitwise complement) and only there."
  },
  {
   "property": "C09",
   "status": "proved",
   "theorems": [
    "C09_colour_additive"
   ],
   "note": ""
  },
  {
   "property": "C10",
   "status": "proved",
   "theorems": [
    "C10_modulus_zero_refuted",
    "C10_modulus_zero_release"
   ],
   "note": "False: every operation panics in debug builds. In release builds they are arithmetic modulo 65536 on 16-bit components."
  },
  {
   "property": "C11",
   "status": "proved",
   "theorems": [
    "C11_hamming_threshold"
   ],
   "note": ""
  },
  {
   "property": "C12",
   "status": "proved",
   "theorems": [
    "C12_masked_hamming_threshold",
    "C12_unmasks"
   ],
   "note": ""
  },
  {
   "property": "C13",
   "status": "proved",
   "theorems": [
    "C13_built_verify",
    "C13_bound_needed"
   ],
   "note": "For sizes and thresholds up to 65534; at threshold 65535 the builders panic in debug builds."
  },
  {
   "property": "C14",
   "status": "proved",
   "theorems": [
    "C14_verify_circuit"
   ],
   "note": ""
  },
  {
   "property": "C15",
   "status": "proved",
   "theorems": [
    "C15_verify_protects_refuted"
   ],
   "note": "False, three witnesses: panic, uninitialised read, rejected honest run."
  },
  {
   "property": "C16",
   "status": "proved",
   "theorems": [
    "C16_eval_semantics_refuted",
    "C16_eval_semantics_exactly",
    "C16_eval_semantics_when_right"
   ],
   "note": "False for AND, for constant multiples above the domain and for sums above 65535; the exact condition is proved."
  },
  {
   "property": "C17",
   "status": "proved",
   "theorems": [
    "C17_builder_metadata_refuted",
    "C17_input_domains_exactly",
    "C17_builder_metadata"
   ],
   "note": "False: counts are right, but input domains are wrong when a gate mixes inputs and intermediate wires or reads inputs out of order; the exact condition is proved."
  },
  {
   "property": "C18",
   "status": "proved",
   "theorems": [
    "C18_garbled_evaluation"
   ],
   "note": "Supported moduli; the collision alternative names the two strings of the run."
  },
  {
   "property": "C19",
   "status": "proved",
   "theorems": [
    "C19_every_modulus_refuted"
   ],
   "note": "False: modulus 200."
  },
  {
   "property": "C20",
   "status": "proved",
   "theorems": [
    "C20_decode_genuine",
    "C20_genuine_unique",
    "C20_large_tag_panics"
   ],
   "note": "The DecodeError part needs labels tagged with the right modulus; a larger tag panics."
  },
  {
   "property": "C21",
   "status": "proved",
   "theorems": [
    "C21_decoders_agree"
   ],
   "note": ""
  },
  {
   "property": "C22",
   "status": "proved",
   "theorems": [
    "C22_binary_keys"
   ],
   "note": "Converting back an empty key panics."
  },
  {
   "property": "C23",
   "status": "proved",
   "theorems": [
    "C23_and_leak_refuted",
    "C23_and_leak_any_wire_refuted"
   ],
   "note": "False for an AND gate that reads the same wire twice."
  },
  {
   "property": "C63",
   "status": "proved",
   "theorems": [
    "C63_short_vector_refuted"
   ],
   "note": "False: the result is padded with zeros."
  },
  {
   "property": "C24",
   "status": "proved",
   "theorems": [
    "C24_product_is_convolution",
    "C24_remainder_unique",
    "C24_generic_mul_acc"
   ],
   "note": "Termination of the shift loop is part of the statement (the fuel never runs out)."
  },
  {
   "property": "C25",
   "status": "proved",
   "theorems": [
    "C25_platforms_agree",
    "C25_apricot_platforms_agree"
   ],
   "note": "Intrinsics follow the vendors' documentation."
  },
  {
   "property": "C26",
   "status": "proved",
   "theorems": [
    "C26_ring_laws"
   ],
   "note": ""
  },
  {
   "property": "C27",
   "status": "proved",
   "theorems": [
    "C27_transpose",
    "C27_transpose_twice",
    "C27_transpose_panics",
    "C27_transpose_matrix"
   ],
   "note": ""
  },
  {
   "property": "C28",
   "status": "proved",
   "theorems": [
    "C28_tranpose_64_refuted",
    "C28_total",
    "C28_forgets_bits_refuted"
   ],
   "note": "False: a matrix with one bit set becomes the zero matrix."
  },
  {
   "property": "C29",
   "status": "proved",
   "theorems": [
    "C29_every_schedule_same_results",
    "C29_results_are_unique",
    "C29_consistent_transcripts"
   ],
   "note": "Includes schedules in which a side notices that its peer has already ended."
  },
  {
   "property": "C30",
   "status": "proved",
   "theorems": [
    "C30_negotiation"
   ],
   "note": ""
  },
  {
   "property": "C31",
   "status": "proved",
   "theorems": [
    "C31_coin_flip_agreement",
    "C31_uniform_for_the_receiver",
    "C31_uniform_for_the_sender"
   ],
   "note": "Uniformity as a bijection, against an arbitrary peer."
  },
  {
   "property": "C32",
   "status": "proved",
   "theorems": [
    "C32_accepts_only_openings",
    "C32_commitment_is_binding"
   ],
   "note": "The collision is the explicit pair of openings."
  },
  {
   "property": "C33",
   "status": "proved",
   "theorems": [
    "C33_base_OT_correct"
   ],
   "note": ""
  },
  {
   "property": "C34",
   "status": "proved",
   "theorems": [
    "C34_choices_perfectly_hidden"
   ],
   "note": "The peer's messages are arbitrary; only points outside the base point's subgroup are excluded (see C65)."
  },
  {
   "property": "C42",
   "status": "proved",
   "theorems": [
    "C42_one_of_many_correct",
    "C42_one_of_many_over_base_OT"
   ],
   "note": ""
  },
  {
   "property": "C43",
   "status": "proved",
   "theorems": [
    "C43_debug_core_count_refuted",
    "C43_release_core_count_refuted",
    "C43_message_count_refuted"
   ],
   "note": "False: depends on the number of cores, and fails whenever the number of messages is not a power of two."
  },
  {
   "property": "C58",
   "status": "proved",
   "theorems": [
    "C58_messages_round_trip",
    "C58_garbled_circuits_round_trip",
    "C58_public_keys_round_trip"
   ],
   "note": "Hash maps may be written in any order."
  },
  {
   "property": "C64",
   "status": "proved",
   "theorems": [
    "C64_hostile_bytes_only_fail_to_decode"
   ],
   "note": ""
  },
  {
   "property": "C65",
   "status": "proved",
   "theorems": [
    "C65_choices_hidden_from_any_points_refuted"
   ],
   "note": "False: no subgroup check on received points."
  },
  {
   "property": "C35",
   "status": "proved",
   "theorems": [
    "C35_extension_correct",
    "C35_extension_over_base_OT"
   ],
   "note": "Each side may have its own build profile, architecture and core count."
  },
  {
   "property": "C37",
   "status": "proved",
   "theorems": [
    "C37_empty_t_sum_accepted_refuted",
    "C37_debug_check_is_complete"
   ],
   "note": "False in release builds: an empty t_sum is accepted. It holds in debug builds."
  },
  {
   "property": "C38",
   "status": "proved",
   "theorems": [
    "C38_inconsistent_matrix_always_accepted_refuted"
   ],
   "note": "False: the weights are known before the matrix is sent, and there are more rows than bits in a weight."
  },
  {
   "property": "C39",
   "status": "proved",
   "theorems": [
    "C39_extension_stays_in_bounds",
    "C39_one_of_many_stays_in_bounds"
   ],
   "note": ""
  },
  {
   "property": "C40",
   "status": "proved",
   "theorems": [
    "C40_short_u_is_read_out_of_bounds_refuted",
    "C40_short_x_sum_is_read_out_of_bounds_refuted",
    "C40_short_seeds_are_read_out_of_bounds_refuted",
    "C40_large_index_is_read_out_of_bounds_refuted"
   ],
   "note": "False: received buffers are read without checking their length, and the 1-of-n receiver uses its index argument unchecked."
  },
  {
   "property": "C41",
   "status": "proved",
   "theorems": [
    "C41_workers"
   ],
   "note": ""
  },
  {
   "property": "C60",
   "status": "proved",
   "theorems": [
    "C60_large_messages_panic_refuted"
   ],
   "note": "False: the size is announced in 16 bits; the receiver panics for every larger size."
  },
  {
   "property": "C61",
   "status": "proved",
   "theorems": [
    "C61_honest_release_run_aborts_refuted",
    "C61_release_outcome"
   ],
   "note": "False: choices beyond the last full byte are dropped from the matrix but not from the sum."
  },
  {
   "property": "C44",
   "status": "proved",
   "theorems": [
    "C44_half_keys_agree",
    "C44_half_keys_agree_over_crate_OT"
   ],
   "note": "Both build profiles on either side, any hash map iteration order."
  },
  {
   "property": "C45",
   "status": "proved",
   "theorems": [
    "C45_half_keys_differ"
   ],
   "note": "The possible collision is on the two strings of the garbler's genuine output labels."
  },
  {
   "property": "C46",
   "status": "proved",
   "theorems": [
    "C46_combine_commutes",
    "C46_combine_injective",
    "C46_keys_agree",
    "C46_keys_differ_on_one_threshold"
   ],
   "note": ""
  },
  {
   "property": "C47",
   "status": "proved",
   "theorems": [
    "C47_every_length_refuted",
    "C47_sixteen_bytes_refuted",
    "C47_bad_lengths_refuted",
    "C47_debug_overflow_refuted",
    "C47_working_lengths"
   ],
   "note": "False: 16-byte passwords are summed modulo 129 with u8 wrapping_add; equal passwords give different half keys. The same at every length whose sum modulus is 129..254 or over 32768 (in debug builds the garbler then overflows instead); C47_working_lengths says exactly which lengths work."
  },
  {
   "property": "C62",
   "status": "proved",
   "theorems": [
    "C62_key_string_unambiguous",
    "C62_equal_half_keys"
   ],
   "note": ""
  },
  {
   "property": "C48",
   "status": "proved",
   "theorems": [
    "C48_keys_agree",
    "C48_keys_agree_over_crate_OT"
   ],
   "note": ""
  },
  {
   "property": "C49",
   "status": "proved",
   "theorems": [
    "C49_half_keys",
    "C49_keys_differ"
   ],
   "note": ""
  },
  {
   "property": "C50",
   "status": "proved",
   "theorems": [
    "C50_mask_hides_password",
    "C50_client_view"
   ],
   "note": ""
  },
  {
   "property": "C51",
   "status": "proved",
   "theorems": [
    "C51_server_garbles",
    "C51_client_garbles",
    "C51_both_halves",
    "C51_keys_agree",
    "C51_beyond_threshold"
   ],
   "note": ""
  },
  {
   "property": "C52",
   "status": "proved",
   "theorems": [
    "C52_v1_server_garbles",
    "C52_v1_client_garbles",
    "C52_v1_keys_agree",
    "C52_v2_server_garbles",
    "C52_v2_client_garbles",
    "C52_v2_keys_agree",
    "C52_v1_v2_keys",
    "C52_v2_v1_keys",
    "C52_v1_v2_keys_agree",
    "C52_v2_v1_keys_agree",
    "C52_single_password_refuted"
   ],
   "note": "Holds for two passwords or more. The sessions that mix the two versions, as in two tests, agree as well. False for a list of one password: the first version's client panics in debug builds."
  },
  {
   "property": "C53",
   "status": "proved",
   "theorems": [
    "C53_index_hidden_refuted"
   ],
   "note": "False: the row of payloads at the client's index is the XOR of all rows."
  },
  {
   "property": "C54",
   "status": "proved",
   "theorems": [
    "C54_one_message",
    "C54_in_order",
    "C54_auth_transparent",
    "C54_signed_transparent",
    "C54_signed_message",
    "C54_signed_protocols"
   ],
   "note": ""
  },
  {
   "property": "C55",
   "status": "proved",
   "theorems": [
    "C55_recv_checks_the_code",
    "C55_protocol_sees_checked_messages",
    "C55_delivered_was_coded",
    "C55_nothing_new_from_recorded_frames",
    "C55_signed_recv_checks_the_signature"
   ],
   "note": ""
  },
  {
   "property": "C56",
   "status": "proved",
   "theorems": [
    "C56_replay_refuted",
    "C56_reorder_refuted",
    "C56_no_replay_refuted",
    "C56_reflection_refuted",
    "C56_signed_replay_refuted"
   ],
   "note": "False: frames carry no counter or direction, and one key serves both directions of a remote channel."
  },
  {
   "property": "C57",
   "status": "proved",
   "theorems": [
    "C57_auth_handshake_agrees",
    "C57_signed_handshake_agrees",
    "C57_session"
   ],
   "note": ""
  },
  {
   "property": "C67",
   "status": "proved",
   "theorems": [
    "C67_server_survives_bad_key_refuted",
    "C67_server_survives_disconnect_refuted",
    "C67_malformed_signature_refuted",
    "C67_signed_server_survives_bad_key_refuted",
    "C67_signed_client_never_panics",
    "C67_auth_recv_never_panics"
   ],
   "note": "False for the handshakes and for signed channels, which unwrap what the peer sent; true for recv on authenticated channels."
  },
  {
   "property": "C68",
   "status": "proved",
   "theorems": [
    "C68_programs_agree",
    "C68_many_programs_agree"
   ],
   "note": ""
  },
  {
   "property": "C69",
   "status": "proved",
   "theorems": [
    "C69_typed_bits_distance"
   ],
   "note": ""
  },
  {
   "property": "C70",
   "status": "proved",
   "theorems": [
    "C70_size_in_bits_refuted"
   ],
   "note": "False: the size is used as a number of bytes."
  },
  {
   "property": "C59",
   "status": "proved",
   "theorems": [
    "C59_base_OT_receiver",
    "C59_extension_receiver",
    "C59_evaluator",
    "C59_programs",
    "C59_one_of_many_client",
    "C59_classic_receiver",
    "C59_one_of_many_receiver",
    "C59_one_of_many",
    "C59_third_version",
    "C59_first_version",
    "C59_second_version",
    "C59_mixed_versions"
   ],
   "note": ""
  },
  {
   "property": "C36",
   "status": "proved",
   "theorems": [
    "C36_classic_correct",
    "C36_classic_over_base_OT"
   ],
   "note": ""
  },
  {
   "property": "C71",
   "status": "proved",
   "theorems": [
    "C71_short_x_sum_is_read_out_of_bounds_refuted"
   ],
   "note": "False: an x_sum of fewer than 16 bytes is read past its end, in release builds on every architecture and on x86 also in debug builds."
  },
  {
   "property": "C72",
   "status": "proved",
   "theorems": [
    "C72_apricot_returns_one_message_per_choice",
    "C72_base_OT_refuted",
    "C72_classic_refuted"
   ],
   "note": "True for Apricot. False for the base OT and the classic extension: they return as many messages as the peer sends ciphertexts."
  },
  {
   "property": "C66",
   "status": "proved",
   "theorems": [
    "C66_distant_passwords_agree_refuted",
    "C66_everything_agrees_refuted",
    "C66_reduced_distance_agrees",
    "C66_reduced_distance_differs"
   ],
   "note": "False: the number of bits is cut to 16 bits, so from 8192 bytes on the distance is taken modulo a smaller number. The other two theorems say exactly what is compared instead."
  },
  {
   "property": "C73",
   "status": "proved",
   "theorems": [
    "C73_base_OT_pads"
   ],
   "note": ""
  },
  {
   "property": "C74",
   "status": "proved",
   "theorems": [
    "C74_extension_pads",
    "C74_classic_pads"
   ],
   "note": "Apricot for messages of one size, the classic extension for any sizes."
  },
  {
   "property": "C75",
   "status": "proved",
   "theorems": [
    "C75_other_messages_hidden"
   ],
   "note": "For keys without coincidences and a hash function without collisions among the inputs used."
  },
  {
   "property": "C76",
   "status": "proved",
   "theorems": [
    "C76_projection_offset_refuted",
    "C76_comparison_offset_refuted"
   ],
   "note": "False: when the input's zero label has colour 0 the garbler computes the output label from project(domain) instead of project(0), and row 0 of the public table is a known multiple of the offset (its complement for a comparison)."
  },
  {
   "property": "C77",
   "status": "proved",
   "theorems": [
    "C77_half_key_stolen_refuted",
    "C77_half_key_stolen_over_crate_OT_refuted",
    "C77_password_recovered_refuted"
   ],
   "note": "False: the leaked offset gives all labels of the counting wire, hence both output labels and the exact distance, for all coins except those where every pair of input labels differs in its last bit; 8 * length + 1 distances give the password."
  },
  {
   "property": "C78",
   "status": "proved",
   "theorems": [
    "C78_wrong_client_gets_key_refuted",
    "C78_wrong_server_gets_key_refuted",
    "C78_wrong_client_over_crate_OT_refuted"
   ],
   "note": "False: the attacker steals one half key as in C77 and garbles the other half with a threshold that accepts every password."
  },
  {
   "property": "C79",
   "status": "proved",
   "theorems": [
    "C79_wrong_single_gets_key_refuted",
    "C79_wrong_many_gets_key_refuted"
   ],
   "note": "False: the same attack in both roles of the fourth version."
  },
  {
   "property": "C80",
   "status": "proved",
   "theorems": [
    "C80_garbler_frames_do_not_tell_the_half_key",
    "C80_evaluator_frames_do_not_tell_the_half_key",
    "C80_half_key_rests_on_the_label_for_1",
    "C80_over_crate_OT"
   ],
   "note": ""
  },
  {
   "property": "C81",
   "status": "proved",
   "theorems": [
    "C81_fpake_keys_can_be_anything",
    "C81_many_fpake_keys_can_be_anything",
    "C81_many_fpake_over_crate_OT",
    "C81_key_rests_on_the_own_label",
    "C81_recorded_session_fits_every_key"
   ],
   "note": "The exception is the all-zero key, which the two half keys combine to when they are equal."
  },
  {
   "property": "C82",
   "status": "proved",
   "theorems": [
    "C82_no_uninitialised_read",
    "C82_own_circuits_are_safe",
    "C82_evaluator_is_memory_safe_refuted",
    "C82_evaluator_never_panics_refuted",
    "C82_client_is_memory_safe_refuted"
   ],
   "note": "False: a hostile garbler makes the client read an uninitialised wire, or panic. True for circuits that write every wire before it is read, in particular those of the crate."
  },
  {
   "property": "C83",
   "status": "proved",
   "theorems": [
    "C83_modulus_irreducible",
    "C83_inverses",
    "C83_no_zero_divisors",
    "C83_wrong_sums_fit_one_delta"
   ],
   "note": ""
  },
  {
   "property": "C84",
   "status": "proved",
   "theorems": [
    "C84_extension_hides_choices",
    "C84_changes_undo",
    "C84_same_sum"
   ],
   "note": "The seeds that the sender does not receive stay hidden by the base OT, which is C73 and not repeated here. Without spanning weights (at most one string of weights in 2^128, by C88) the sum in the check may tell something about the choices; C84_same_sum covers that case as far as it goes."
  },
  {
   "property": "C85",
   "status": "proved",
   "theorems": [
    "C85_evaluator_hides_password",
    "C85_server_hides_mask"
   ],
   "note": "About the evaluator's half only, on top of C84; what the garbler's half gives away is C76 to C81."
  },
  {
   "property": "C86",
   "status": "proved",
   "theorems": [
    "C86_index_hidden",
    "C86_index_hidden_from_any_points_refuted",
    "C86_client_index_refuted"
   ],
   "note": "False for senders that send points outside the subgroup of the base point: one sequence of frames tells every two indices apart, also in mfpake_single. True when every point sent is a multiple of the base point."
  },
  {
   "property": "C87",
   "status": "proved",
   "theorems": [
    "C87_receiver_gets_one_message_refuted"
   ],
   "note": "False: the weights are fixed before u is sent, so a receiver can use different choices in each column, pass the check for every delta, and with the first messages of 128 pairs compute both messages of all pairs. Assumes that the weights of the extra rows span (C88) and that the masks of different rows differ."
  },
  {
   "property": "C88",
   "status": "proved",
   "theorems": [
    "C88_few_weights_do_not_span",
    "C88_apricot_weights_span",
    "C88_spanning_decidable"
   ],
   "note": "The count is stated as an injection into strings that are 16 bytes shorter. That the weights are uniform is an assumption on the generator and the coin flip."
  },
  {
   "property": "C89",
   "status": "proved",
   "theorems": [
    "C89_buffer_is_harmless",
    "C89_unpack_bits",
    "C89_zero_inplace_clears_refuted"
   ],
   "note": "zero_inplace does not clear (it xors with 0); this is harmless because xor overwrites the whole buffer."
  },
  {
   "property": "C90",
   "status": "proved",
   "theorems": [
    "C90_additions_agree",
    "C90_addition_is_a_group",
    "C90_mul_add_assign",
    "C90_mul_add_distributes",
    "C90_additions_always_agree_refuted",
    "C90_operator_multiplies_refuted"
   ],
   "note": "The operators * and *= are todo!(); in release builds a polynomial can have any length, and then the three additions differ."
  },
  {
   "property": "C91",
   "status": "proved",
   "theorems": [
    "C91_auth_channel_stops_the_man_refuted",
    "C91_signed_channel_stops_the_man_refuted",
    "C91_two_sessions",
    "C91_man_between_the_programs_refuted"
   ],
   "note": "False: the keys of the handshake are not authenticated, and nothing in the key exchange is tied to them. With the leak of C76 the man ends with the keys of both programs. Shown for some schedule of the three parties."
  },
  {
   "property": "C92",
   "status": "proved",
   "theorems": [
    "C92_receiver_cannot_steer",
    "C92_exchange_undoes",
    "C92_sender_cannot_steer_refuted"
   ],
   "note": "True for receivers (in the hash-function-as-oracle sense: the sender's view and every result are related by exchanging two values of the hash function). False for senders: they see the result first and can hang up."
  },
  {
   "property": "C93",
   "status": "proved",
   "theorems": [
    "C93_projected_value_refuted",
    "C93_compared_value_refuted",
    "C93_binary_value_refuted"
   ],
   "note": "False: the first row of a projection's table tells whether the zero label of its input wire has colour 0, so the colour of the label that the evaluator holds tells whether it stands for this value; for binary wires this is the value. For every garbling."
  },
  {
   "property": "C94",
   "status": "proved",
   "theorems": [
    "C94_password_read_refuted",
    "C94_fpake_client_reads_refuted",
    "C94_fpake_server_reads_refuted",
    "C94_password_read_over_crate_OT_refuted",
    "C94_single_reads_entry_refuted",
    "C94_many_reads_difference_refuted",
    "C94_v3_client_reads_entry_refuted",
    "C94_v3_server_reads_difference_refuted"
   ],
   "note": "False: with any password of the right length, a party that follows the protocol reads the other password off the messages of one session (in the one-of-many exchanges: the client the entry it asks for, the server the difference between this entry and the client's password). No condition on the randomness."
  },
  {
   "property": "C95",
   "status": "proved",
   "theorems": [
    "C95_projection_free_private"
   ],
   "note": "Perfect: an invertible map between worlds (hash function, input samples) preserves the view. AND gates whose inputs share labels are excluded; C23 shows they leak. Projections are excluded; C93 shows they leak."
  },
  {
   "property": "C96",
   "status": "proved",
   "theorems": [
    "C96_frame_length_refuted",
    "C96_sender_ends",
    "C96_receiver_ends"
   ],
   "note": "False: frames of another length, strings that are not points, a peer that hangs up and too many ciphertexts all cause panics. The two equivalences say exactly which frames lead to a value, an error or a panic; undefined behaviour is impossible."
  },
  {
   "property": "C97",
   "status": "proved",
   "theorems": [
    "C97_constant_vectors",
    "C97_size_refuted",
    "C97_operators",
    "C97_shorter_right_operand_refuted",
    "C97_longer_right_operand",
    "C97_monochrome"
   ],
   "note": "False: sizes are rounded down to multiples of 8, and on operands of different lengths the three forms of XOR differ. True for multiples of 8 and equal lengths."
  },
  {
   "property": "C98",
   "status": "proved",
   "theorems": [
    "C98_base_OT_transfers_nothing",
    "C98_empty_messages_refuted",
    "C98_no_messages_refuted",
    "C98_no_choices_refuted",
    "C98_classic"
   ],
   "note": "False for the extension of apricot.rs: both cases end in panics. True for the base OT; the classic extension transfers empty messages but asserts that there is at least one block."
  },
  {
   "property": "C99",
   "status": "proved",
   "theorems": [
    "C99_inconsistent_caught_half",
    "C99_equal_sums_are_rare",
    "C99_always_caught_refuted"
   ],
   "note": "False as stated: a receiver that lies in one column is accepted when that bit of delta is 0, and learns the bit. True for at least half of all delta, provided the weights (fixed after the matrix) tell the columns apart, which fails for at most one weight of a row out of 2^128. The base OT and the coin flip are played by the rules (see C65, C73, C92)."
  },
  {
   "property": "C100",
   "status": "proved",
   "theorems": [
    "C100_extension_receiver",
    "C100_classic_receiver",
    "C100_many_receiver",
    "C100_extension_sender",
    "C100_classic_sender",
    "C100_evaluator",
    "C100_server_v3",
    "C100_server_v3_refuted",
    "C100_client_v3_refuted"
   ],
   "note": "True for the receivers, for all frames. For the senders it holds for all frames if the seeds have 32 bytes, u has 16 bytes for each of its rows of bits and x_sum has 16 bytes, and for the evaluators if the circuit writes wires before it reads them. False otherwise: see C40 and C82 for shorter frames and other circuits; the two roles of the third version also read outside of a frame of labels that is too short."
  },
  {
   "property": "C101",
   "status": "proved",
   "theorems": [
    "C101_same_function",
    "C101_same_meaning",
    "C101_keeps_metadata",
    "C101_in_steps",
    "C101_next_wire",
    "C101_moved_circuit_evaluates_refuted"
   ],
   "note": "The function and the metadata are kept. False for evaluation: a moved circuit passes verify_circuit, but its evaluation panics for all inputs, because the table of wires has room for the unmoved wires only (for all circuits in which a gate writes the highest wire)."
  },
  {
   "property": "C102",
   "status": "proved",
   "theorems": [
    "C102_debug_rejects",
    "C102_release_rejects_refuted"
   ],
   "note": "True in debug builds, for all labels. False in release builds: the sum and the difference of a label of modulus m and any other 32 bytes is a label of modulus m."
  },
  {
   "property": "C103",
   "status": "proved",
   "theorems": [
    "C103_failure_is_independent_refuted",
    "C103_failures_tell_nothing_refuted",
    "C103_client_refuted",
    "C103_server_refuted",
    "C103_one_of_many_client_refuted"
   ],
   "note": "False: a peer that garbles one projection with half of a table makes the session panic exactly when a bit of its choice is 1 in the evaluator's password; the failures of as many sessions as there are bits tell the whole password. Also for the whole client and server programs and for the client of the one-of-many exchange (whatever entry it asks for), which otherwise end with a key."
  },
  {
   "property": "C104",
   "status": "proved",
   "theorems": [
    "C104_utf8",
    "C104_offer",
    "C104_injective"
   ],
   "note": "The specification is RFC 3629: arithmetic encoding of scalar values, independent of the table-driven decoder. That serde uses core::str::from_utf8 for String is trusted."
  },
  {
   "property": "C105",
   "status": "proved",
   "theorems": [
    "C105_server",
    "C105_client",
    "C105_many_server",
    "C105_many_client"
   ],
   "note": "For every list of raw frames, including wrong codes and early ends. The four conditions are needed: C40 and C82 have the peers that break them. Beyond C100 this covers garbling, the handshake, the authenticated channel and the composition of all parts."
  },
  {
   "property": "C106",
   "status": "proved",
   "theorems": [
    "C106_accepted",
    "C106_garbled",
    "C106_whole_frame_refuted",
    "C106_garbled_once_refuted"
   ],
   "note": "False: that a frame is the only one for its value. bincode::deserialize ignores what follows, and hash maps overwrite. The converse of C58: accepted frames are encodings."
  },
  {
   "property": "C107",
   "status": "proved",
   "theorems": [
    "C107_server",
    "C107_client",
    "C107_many_server",
    "C107_many_client",
    "C107_length_shows",
    "C107_v3_server",
    "C107_v3_client",
    "C107_v1_server",
    "C107_v1_client",
    "C107_v2_server",
    "C107_v2_client"
   ],
   "note": "Lengths as in C45 (the good ones); thresholds up to 65534; 32-byte codes, public keys, hashes and points. The three versions of fpake.rs and legacy_fpake.rs as well, over an unauthenticated channel; in the first the sizes of both sides grow with the number of passwords."
  },
  {
   "property": "C108",
   "status": "proved",
   "theorems": [
    "C108_bounded_refuted",
    "C108_verified",
    "C108_honest"
   ],
   "note": "False: 64 bytes make the evaluator ask for any amount, or panic. Proved for circuits that pass verify_circuit, which the programs do not call."
  },
  {
   "property": "C109",
   "status": "proved",
   "theorems": [
    "C109_server",
    "C109_client",
    "C109_many_server",
    "C109_many_client",
    "C109_v3",
    "C109_plain_ends",
    "C109_many_ends",
    "C109_v3_ends",
    "C109_older_servers",
    "C109_older_clients",
    "C109_older_end"
   ],
   "note": "Up to the transport itself: a frame that is sent arrives, and a receiver learns when its peer has ended. Two one-of-many parties with different numbers of index bits, which the theorems about two parties leave out, both end with an error (C118)."
  },
  {
   "property": "C110",
   "status": "proved",
   "theorems": [
    "C110_wrong_client_gets_key_refuted",
    "C110_wrong_server_gets_key_refuted"
   ],
   "note": "False: the attack of C77 works on the circuit for three passwords as well. Either role ends with the honest side's key and with the exact distance, for all coins but one in 2^(8 * length)."
  },
  {
   "property": "C111",
   "status": "proved",
   "theorems": [
    "C111_half_key_refuted",
    "C111_wrong_client_refuted",
    "C111_wrong_server_refuted",
    "C111_offline_search_refuted"
   ],
   "note": "False: the evaluator accepts any circuit and any labels. With a single addition gate, the label 0 for 0 and a unit vector for 1, its half key is the digest of its password (of up to 32 bytes). The other half key is stolen as in C77; the attacker can then check every password against the key without a further session."
  },
  {
   "property": "C112",
   "status": "proved",
   "theorems": [
    "C112_half_key_forced_refuted",
    "C112_insider_refuted",
    "C112_outsider_refuted"
   ],
   "note": "False: a garbler makes the evaluator's half key the digest of any label and wire number it likes. The client learns the label behind the first half key (by evaluating with a close password, or as in C77 without one), and makes the second half key the same: the server's key is 32 zero bytes."
  },
  {
   "property": "C113",
   "status": "proved",
   "theorems": [
    "C113_half_keys_agree_refuted",
    "C113_any_passwords_agree_refuted",
    "C113_any_labels_refuted"
   ],
   "note": "False: the number of bits is cut to 16 bits before 1 is added, so that 65536 bits are summed modulo 1. Every label of the sum is zero, the comparison has a single row, and its row holds the label for 1: all passwords of 8192 bytes (or a multiple) are accepted under every threshold, and any labels at all evaluate to the half key. Beyond C66, whose lengths have a modulus of at least 2. Hypothesis added: the coins drawn from 0..1 are 0."
  },
  {
   "property": "C114",
   "status": "proved",
   "theorems": [
    "C114_fpake_refuted",
    "C114_mfpake_refuted",
    "C114_v3_refuted",
    "C114_legacy_refuted",
    "C114_same_key_refuted"
   ],
   "note": "False: the key does not depend on the frames but on the values in them, and bincode ignores what follows a value. Any run that ends well ends the same if bytes are appended to the frame with the garbled circuit. Only the authenticated channels (C55) notice."
  },
  {
   "property": "C115",
   "status": "proved",
   "theorems": [
    "C115_everyone_passes",
    "C115_debug_refuted",
    "C115_release_refuted",
    "C115_exchange_refuted"
   ],
   "note": "False: the circuit asks whether the distance is below threshold + 1, which does not fit 16 bits. In debug builds every garbler panics before it sends anything; in release builds the bound becomes 0 and no password passes, not even the same one. Up to 65534 the property holds (C115_everyone_passes)."
  },
  {
   "property": "C116",
   "status": "proved",
   "theorems": [
    "C116_fpake",
    "C116_v3",
    "C116_mfpake_refuted",
    "C116_mfpake_tail_ignored_refuted",
    "C116_mfpake_server_panics_refuted",
    "C116_mfpake_client_panics_refuted"
   ],
   "note": "True for plain fPAKE and the third version, whose OT extension compares the lengths. False for the version with masks: in release builds it cuts all passwords to the length of the first of the list, so that a longer password with the right beginning passes; in debug builds, and when a password is shorter, the side concerned panics."
  },
  {
   "property": "C117",
   "status": "proved",
   "theorems": [
    "C117_wrong_single_refuted",
    "C117_wrong_many_refuted",
    "C117_offline_search_refuted",
    "C117_insider_refuted",
    "C117_outsider_refuted"
   ],
   "note": "False: after the 1-out-of-n OT the exchange is plain fPAKE over the mask, so the attacks of C111 and C112 carry over. The client gets a masked password at an index of its choice, steals the offset, and has the key up to the hash of masked-password xor password, which it can search through; or it makes the server's key all zeros. A server giving out zeros for all masked passwords gets the client's key up to the client's password."
  },
  {
   "property": "C118",
   "status": "proved",
   "theorems": [
    "C118_mfpake",
    "C118_v3",
    "C118_mfpake_refuted",
    "C118_v3_refuted"
   ],
   "note": "True whenever the two numbers have different ceiling logarithms: the base OTs below the 1-out-of-n OT compare the number of index bits, and both sides end with the same error (this is the case C109 leaves open). False otherwise: a client that counts fewer passwords, but more than half of them, gets the key, also for an index beyond its own number."
  },
  {
   "property": "C119",
   "status": "proved",
   "theorems": [
    "C119_two_servers_refuted",
    "C119_two_plain_servers_refuted",
    "C119_two_clients_refuted",
    "C119_two_many_clients_refuted",
    "C119_two_v3_clients_refuted"
   ],
   "note": "False: nothing in the messages names the role of their sender. Two servers of main.rs with passwords of the same length finish the handshake and the negotiation, and then both wait for the first message of the coin flip; two clients wait for each other's public key. Under every schedule the only end is that both wait and nothing is on its way. Two servers of the one-of-many exchange are not covered."
  },
  {
   "property": "C120",
   "status": "proved",
   "theorems": [
    "C120_plain",
    "C120_many",
    "C120_v3",
    "C120_older_versions",
    "C120_same_end",
    "C120_base_refuted",
    "C120_plain_refuted",
    "C120_plain_exact_refuted",
    "C120_many_refuted",
    "C120_versions_refuted"
   ],
   "note": "True with room for 28 bytes and the framing h of one frame on a raw channel, and for 60 + 2h on an authenticated one (a message of 28 bytes and its code). False for less: both sides send their properties before they read, so below 28 + h the base OT and the versions of the one-of-many exchange on a raw channel clog, and below 60 + 2h main.rs (with passwords of equal length; below 55 + 2h with any) and the one-of-many programs. The bounds are therefore exact. The older versions and their two mixtures are covered by C120_older_versions. The transport is modelled as a queue with a bound on its bytes, through which a longer frame passes when the peer is reading."
  },
  {
   "property": "C121",
   "status": "proved",
   "theorems": [
    "C121_wrong_client_refuted",
    "C121_wrong_server_refuted",
    "C121_offline_search_refuted",
    "C121_insider_refuted",
    "C121_outsider_refuted"
   ],
   "note": "False: the evaluators of the third version also take any circuit and any labels. With a single addition, labels of its own for the bits obtained by OT and zeros for all other labels, a client without a password gets the server's key up to the hash of masked-password xor password, a server gets the client's key up to the hash of the client's password, and both can search through the candidates on their own. A client can also make the server's key all zeros. The thefts assume as in C110 that some three labels have an even sum of last bits."
  },
  {
   "property": "C122",
   "status": "proved",
   "theorems": [
    "C122_key_fixed_refuted",
    "C122_unnoticed_refuted",
    "C122_codes_refuted",
    "C122_programs_refuted"
   ],
   "note": "False: the public key received is used as it is, and the shared secret is not checked (was_contributory). Given a public key that leads to the same secret for every scalar, as the points of small order of X25519 do, a peer fixes the key of the honest side. Somebody between the programs who replaces only the two public keys by it gives both the same channel key, which is known to that person; the programs end as without the replacement. So, other than in C91, comparing the channel keys would not show the attack. Existence of such a key is a hypothesis (weak_key), which X25519 meets by RFC 7748."
  },
  {
   "property": "C123",
   "status": "proved",
   "theorems": [
    "C123_server_v3_refuted",
    "C123_one_of_many_server_refuted",
    "C123_sessions_tell_a_password_refuted",
    "C123_client_v3_refuted"
   ],
   "note": "False: the server evaluates with its mask, so a client that garbles one projection with half of a table makes the server panic exactly when a bit of its choice is 1 in the mask; xored with the masked password that it got by the 1-of-n OT this is a bit of the password at an index of its choice. As many sessions as there are bits tell the whole password although each has a mask of its own. Both for mfpake_many (src/server/main.rs) and the third version. The client of the third version fails likewise by a bit of its password (mfpake_single is in C103)."
  },
  {
   "property": "C124",
   "status": "proved",
   "theorems": [
    "C124_announced_size_refuted",
    "C124_empty_last_frame_refuted",
    "C124_receiver_ends",
    "C124_sizes",
    "C124_coin_flip_ends"
   ],
   "note": "False: an announced size of fewer than two bytes panics in every build, and in release an empty last frame is accepted: the receiver returns messages of the announced size nobody sent. C124_receiver_ends gives, for every sequence of frames, exactly when the receiver ends with a value, a panic or an error (never undefined behaviour); the coin flip part of the claim is true (C124_coin_flip_ends). The base OT of the statement is the one of the code (co_sender)."
  },
  {
   "property": "C125",
   "status": "proved",
   "theorems": [
    "C125_main_server_many_client",
    "C125_many_server_main_client",
    "C125_mirrored_server_waits",
    "C125_mirrored_server",
    "C125_mirrored_many_server",
    "C125_mirrored_clients"
   ],
   "note": "The channel accepts the reflected public key and the reflected codes (C56), so it is the exchange on top of it that gives no key. The mirrored server/main.rs is shown to get no key; whether it waits or fails depends on its random values. The 1-out-of-2 OTs of the first phase are those of the code, with any base OT under the extension."
  },
  {
   "property": "C126",
   "status": "proved",
   "theorems": [
    "C126_half_key_refuted",
    "C126_exchanges_refuted",
    "C126_legacy_refuted",
    "C126_programs_refuted"
   ],
   "note": "False: the circuit is sent as it is, and the bound of its last gate is the threshold plus one. Every version, and every program over the authenticated channel, ends with a key only after sending such a frame, whatever the peer does. In release a threshold of 65535 wraps to a bound of 0 and is left out here. The evaluator does not compare that bound with its own threshold."
  },
  {
   "property": "C127",
   "status": "proved",
   "theorems": [
    "C127_v1_server_v2_client",
    "C127_v1_server_v3_client",
    "C127_v2_server_v1_client",
    "C127_v3_server_v1_client",
    "C127_v3_server_v2_client",
    "C127_v2_server_v3_client_refuted"
   ],
   "note": "False for one of the six pairs: with a server of the second version and a client of the third the client ends with a key, as it only sends in the last part, and the server never does. In the other pairs both sides get stuck, or the one that takes a parameter frame for a curve point panics. The first parts are honest runs over the base OT; the OTs that come later are arbitrary where the session does not get to them."
  },
  {
   "property": "C128",
   "status": "proved",
   "theorems": [
    "C128_fpake",
    "C128_fpake_refuted",
    "C128_one_of_many",
    "C128_one_of_many_refuted",
    "C128_v3",
    "C128_mfpake",
    "C128_mfpake_refuted"
   ],
   "note": "False in two places, true otherwise. The benchmark of the plain exchange at 128 bits may end with two different keys without noticing. The benchmarks that use the 1-out-of-n OT work if the sender's number of cores suits the number of messages; with a number of cores that is not a power of two the sender writes behind the end of its buffer as soon as there are at least cores * cores messages."
  },
  {
   "property": "C129",
   "status": "proved",
   "theorems": [
    "C129_release_runs",
    "C129_distance_circuits",
    "C129_sizes_refuted",
    "C129_exchange_ends"
   ],
   "note": "False for circuits over 65534 or 65535 bits (modulo 65536), which cannot be garbled; true for all other sizes. Those two are no multiples of 8, so that exchanges end with a key on each side for every length of the passwords. Whether the two keys agree is the matter of C46 and C47."
  },
  {
   "property": "C130",
   "status": "proved",
   "theorems": [
    "C130_garble",
    "C130_apricot",
    "C130_classic",
    "C130_chou_orlandi"
   ],
   "note": "The time the benchmarks take is not modelled. The garbling is that of a release build, as cargo bench makes; the OTs are shown for both profiles."
  },
  {
   "property": "C131",
   "status": "proved",
   "theorems": [
    "C131_exchange_ends",
    "C131_v1_ends",
    "C131_v2_ends",
    "C131_mfpake_ends"
   ],
   "note": "The first version needs at least two passwords (C52_single_password_refuted). Whether the two keys agree is the matter of C51 and C52."
  },
  {
   "property": "C132",
   "status": "proved",
   "theorems": [
    "C132_build",
    "C132_eval",
    "C132_garble",
    "C132_evaluate",
    "C132_wires",
    "C132_helpers",
    "C132_base_OT",
    "C132_extension",
    "C132_classic",
    "C132_one_of_many",
    "C132_plain",
    "C132_mfpake",
    "C132_v3",
    "C132_v1",
    "C132_v2",
    "C132_v12",
    "C132_v21",
    "C132_main",
    "C132_many_main"
   ],
   "note": "The converse is false: C61 and C129 have runs that only a release build completes. Of the places where the model itself simplifies the difference between builds (MGarble.garble_run: num_wires < num_outputs), nothing is said."
  },
  {
   "property": "C133",
   "status": "proved",
   "theorems": [
    "C133_multiplication",
    "C133_workers",
    "C133_extension",
    "C133_one_of_many",
    "C133_core_count_refuted",
    "C133_plain",
    "C133_mfpake",
    "C133_v3",
    "C133_v1",
    "C133_v2",
    "C133_v12",
    "C133_v21",
    "C133_main",
    "C133_many_main"
   ],
   "note": "False for the sender of the one-out-of-many OT with other numbers of cores (see C43). Workers run one after the other; C41 treats other orders of rows that do not fail. The classic extension is not covered: its multiplications differ in what they assert."
  },
  {
   "property": "C134",
   "status": "proved",
   "theorems": [
    "C134_plain",
    "C134_mfpake",
    "C134_v3",
    "C134_v1",
    "C134_v2",
    "C134_v12",
    "C134_v21",
    "C134_plain_same_coins_refuted",
    "C134_mfpake_same_coins_refuted",
    "C134_v3_same_coins_refuted",
    "C134_v1_same_coins_refuted",
    "C134_v2_same_coins_refuted"
   ],
   "note": "The criterion is proved; that distant passwords always lead to different keys is False, also with a hash free of collisions: the same randomness on both sides is a witness for any passwords. The output labels themselves differ, so equal digests in the second and third case are collisions."
  },
  {
   "property": "C135",
   "status": "proved",
   "theorems": [
    "C135_list_length_refuted",
    "C135_receiver_ends",
    "C135_sender_ends"
   ],
   "note": "False: after an agreement, frames that are no points and lists of another length make the receiver panic, and frames that are no points the sender. The theorems say for every conversation which of the three endings it has; a debug build also panics if a chosen ciphertext has no whole number of 32 bytes."
  },
  {
   "property": "C136",
   "status": "proved",
   "theorems": [
    "C136_v1_bits",
    "C136_v1_number",
    "C136_v2_bits",
    "C136_v12_bits",
    "C136_v21_bits",
    "C136_v21_number",
    "C136_v2_refuted",
    "C136_v12_refuted"
   ],
   "note": "True of version 1, and of version 2 for the server's circuit with version 1 for the client's: a number with other index bits is caught by the one-out-of-many OT, any other wrong number by the OT extension of the second half, whose size is the number of passwords times that of one. False for version 2 and for version 1 for the server's circuit with version 2 for the client's: there only the number of index bits is compared, and with as many bits both sides get the key."
  },
  {
   "property": "C137",
   "status": "proved",
   "theorems": [
    "C137_points_refuted",
    "C137_empty_lists_refuted",
    "C137_receiver_ends",
    "C137_other_numbers",
    "C137_sizes"
   ],
   "note": "False: frames that are no points make the receiver panic after the agreement, and lists of any length count: as many messages are returned as the shorter list has, for two empty lists none. The theorems say for every conversation which ending it has. Numbers of choices below 8 or not divisible by 8 make the receiver panic, but only after the peer has agreed to them."
  },
  {
   "property": "C138",
   "status": "proved",
   "theorems": [
    "C138_client",
    "C138_v1_refuted",
    "C138_v2_refuted",
    "C138_v12_refuted",
    "C138_v21_refuted",
    "C138_server"
   ],
   "note": "False: of a longer password in the list only the beginning counts, as long as the first of the list, so that a client typing that beginning gets the key: in version 1 in every build, in version 2 and the mixtures in release builds. True of the client's password, where the negotiation of the OT extension ends both sides with an error, of shorter passwords in the list, with which a server never gets a key whatever its peer sends, and of debug builds other than of version 1."
  },
  {
   "property": "C139",
   "status": "proved",
   "theorems": [
    "C139_rows_refuted",
    "C139_last_bit_refuted"
   ],
   "note": "False: a row is looked up only where the bit of delta is 1. With the first k rows alone the transfer succeeds, and the receiver gets all its messages, if the bits of delta from k on are 0; otherwise the sender panics. C40 has the same gap in apricot.rs, where the sender reads out of bounds."
  },
  {
   "property": "C140",
   "status": "proved",
   "theorems": [
    "C140_classic_hides_choices",
    "C140_classic_weights_span",
    "C140_same_sum"
   ],
   "note": "As C84 for apricot.rs; C84_changes_undo says that both changes undo themselves and do not touch what the sender can compute. The seeds that the sender does not receive stay hidden by the base OT (C73). Without spanning weights the sum in the check may tell something about the choices; C140_same_sum covers that case as far as it goes."
  },
  {
   "property": "C141",
   "status": "proved",
   "theorems": [
    "C141_receiver",
    "C141_sender_release",
    "C141_sender",
    "C141_sender_debug_refuted"
   ],
   "note": "False for the sender in a debug build: the x86 multiplication does not check the length of its operands, so that an x sum of more than 16 bytes gives an error there and a panic on other processors. True for the receiver in all builds and for the sender in release builds, on all frames (of bytes), and for the sender in all builds if the x sum it gets has 16 bytes. Sums of fewer than 16 bytes are read out of bounds (C71), which counts as one ending here. C133 is the claim for apricot.rs."
  },
  {
   "property": "C142",
   "status": "proved",
   "theorems": [
    "C142_sender",
    "C142_receiver",
    "C142_ends",
    "C142_receiver_sizes",
    "C142_sender_sizes"
   ],
   "note": "Over the base OT of the crate. The sizes of the sender are for messages of one length. Up to the transport itself, as in C109. C107 and C109 are the claims for apricot.rs and the programs."
  },
  {
   "property": "C143",
   "status": "proved",
   "theorems": [
    "C143_classic_sender",
    "C143_classic_receiver"
   ],
   "note": "Over the base OT of the crate, for any numbers of messages and choices. The parties fail at the frame in which one flips coins and the other starts the base OT: 28 bytes are neither a coin nor a digest. The failure may be a panic when a coin or a digest reads as the properties of the base OT."
  }
 ]
}
