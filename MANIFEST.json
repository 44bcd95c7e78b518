{
 "claims": [
  {
   "property": "C01",
   "status": "proved",
   "theorems": [
    "C01_params_new_exact"
   ],
   "note": "Proved in full, for every suite satisfying the laws and all inputs."
  },
  {
   "property": "C02",
   "status": "proved",
   "theorems": [
    "C02_lagrange_outcome",
    "C02_absent_index_accepted"
   ],
   "note": "The documented error for an absent index does not exist: absence is proved to be accepted (F1)."
  },
  {
   "property": "C03",
   "status": "proved",
   "theorems": [
    "C03_lagrange_reconstructs"
   ],
   "note": "Proved in full, for every suite satisfying the laws and all inputs."
  },
  {
   "property": "C04",
   "status": "proved",
   "theorems": [
    "C04_share_is_polynomial_value"
   ],
   "note": "Proved in full, for every suite satisfying the laws and all inputs."
  },
  {
   "property": "C05",
   "status": "proved",
   "theorems": [
    "C05_few_shares_hide_secret",
    "C05_explaining_polynomial_unique"
   ],
   "note": "Proved in full, for every suite satisfying the laws and all inputs."
  },
  {
   "property": "C06",
   "status": "proved",
   "theorems": [
    "C06_share_verify_iff",
    "C06_honest_share_verifies"
   ],
   "note": "Proved in full, for every suite satisfying the laws and all inputs."
  },
  {
   "property": "C07",
   "status": "proved",
   "theorems": [
    "C07_encrypt_decrypt"
   ],
   "note": "Proved in full, for every suite satisfying the laws and all inputs."
  },
  {
   "property": "C08",
   "status": "proved",
   "theorems": [
    "C08_nizk_complete"
   ],
   "note": "Proved in full, for every suite satisfying the laws and all inputs."
  },
  {
   "property": "C09",
   "status": "proved",
   "theorems": [
    "C09_hashed_string_is_unique",
    "C09_two_statements_collide",
    "C09_nizk_verify_iff",
    "C09_nizk_input_binding",
    "C09_nizk_special_sound"
   ],
   "note": "Proved in full, for every suite satisfying the laws and all inputs."
  },
  {
   "property": "C10",
   "status": "proved",
   "theorems": [
    "C10_complaint_complete"
   ],
   "note": "Proved in full, for every suite satisfying the laws and all inputs."
  },
  {
   "property": "C11",
   "status": "proved",
   "theorems": [
    "C11_complaint_verify_iff",
    "C11_complaint_sound",
    "C11_wrong_key_one_challenge",
    "C11_complaint_input_binding"
   ],
   "note": "Proved in full, for every suite satisfying the laws and all inputs."
  },
  {
   "property": "C12",
   "status": "proved",
   "theorems": [
    "C12_new_dealer_well_formed",
    "C12_new_signer_well_formed",
    "C12_index_zero_rejected"
   ],
   "note": "Proved in full, for every suite satisfying the laws and all inputs."
  },
  {
   "property": "C13",
   "status": "proved",
   "theorems": [
    "C13_count_mismatch",
    "C13_bootstrap_outcome",
    "C13_new_outcome",
    "C13_reshare_outcome"
   ],
   "note": "Proved in full, for every suite satisfying the laws and all inputs."
  },
  {
   "property": "C14",
   "status": "proved",
   "theorems": [
    "C14_round_one_panics_exactly",
    "C14_reshare_never_panics",
    "C14_zero_threshold_never_succeeds"
   ],
   "note": "The panic is a defect of the code (F8)."
  },
  {
   "property": "C15",
   "status": "proved",
   "theorems": [
    "C15_bootstrap_shares",
    "C15_reshare_shares",
    "C15_new_has_no_shares"
   ],
   "note": "Proved in full, for every suite satisfying the laws and all inputs."
  },
  {
   "property": "C16",
   "status": "proved",
   "theorems": [
    "C16_complaints_exact"
   ],
   "note": "Proved in full, for every suite satisfying the laws and all inputs."
  },
  {
   "property": "C17",
   "status": "proved",
   "theorems": [
    "C17_round_two_outcome",
    "C17_cases_exhaustive"
   ],
   "note": "Includes the underflow and debug-assert cases (F6)."
  },
  {
   "property": "C18",
   "status": "proved",
   "theorems": [
    "C18_round_one_succeeds",
    "C18_honest_agreement",
    "C18_any_t_keys_reconstruct"
   ],
   "note": "Proved in full, for every suite satisfying the laws and all inputs."
  },
  {
   "property": "C19",
   "status": "proved",
   "theorems": [
    "C19_finish_matches_commitments",
    "C19_complete_round_two_suffices"
   ],
   "note": "Proved in full, for every suite satisfying the laws and all inputs."
  },
  {
   "property": "C20",
   "status": "proved",
   "theorems": [
    "C20_any_t_keys_give_group_key",
    "C20_finish_group_key"
   ],
   "note": "Proved in full, for every suite satisfying the laws and all inputs."
  },
  {
   "property": "C21",
   "status": "proved",
   "theorems": [
    "C21_withheld_share_desynchronises",
    "C21_removal_restores_agreement"
   ],
   "note": "States a weakness of the code (F6) as a theorem about all such runs, with witness."
  },
  {
   "property": "C22",
   "status": "proved",
   "theorems": [
    "C22_one_verdict_per_complaint",
    "C22_blame_outcome"
   ],
   "note": "Proved in full, for every suite satisfying the laws and all inputs."
  },
  {
   "property": "C23",
   "status": "proved",
   "theorems": [
    "C23_order_and_duplicates_irrelevant",
    "C23_blame_only_removes"
   ],
   "note": "Proved in full, for every suite satisfying the laws and all inputs."
  },
  {
   "property": "C24",
   "status": "proved",
   "theorems": [
    "C24_genuine_complaint_removes_cheater"
   ],
   "note": "Proved in full, for every suite satisfying the laws and all inputs."
  },
  {
   "property": "C25",
   "status": "proved",
   "theorems": [
    "C25_complaint_on_correct_share_backfires",
    "C25_honest_dealer_convicted_only_by_another_key"
   ],
   "note": "Proved in full, for every suite satisfying the laws and all inputs."
  },
  {
   "property": "C26",
   "status": "proved",
   "theorems": [
    "C26_complaints_above_reduced_n_are_lost"
   ],
   "note": "Weakness (F2)."
  },
  {
   "property": "C27",
   "status": "proved",
   "theorems": [
    "C27_anyone_can_frame_an_honest_dealer"
   ],
   "note": "Weakness (F3): constructed for every state."
  },
  {
   "property": "C28",
   "status": "proved",
   "theorems": [
    "C28_separate_calls_remove_the_second_maker",
    "C28_separate_calls_agree_if_accused_survive"
   ],
   "note": "Weakness (F4), witness by computation."
  },
  {
   "property": "C29",
   "status": "proved",
   "theorems": [
    "C29_rejected_complaint_removes_the_makers_index"
   ],
   "note": "Weakness (F5), witness by computation."
  },
  {
   "property": "C30",
   "status": "proved",
   "theorems": [
    "C30_finish_succeeds_for_any_retained_set"
   ],
   "note": "Weakness (F7)."
  },
  {
   "property": "C31",
   "status": "proved",
   "theorems": [
    "C31_same_complaints_same_view"
   ],
   "note": "Proved in full, for every suite satisfying the laws and all inputs."
  },
  {
   "property": "C32",
   "status": "proved",
   "theorems": [
    "C32_reshare_succeeds",
    "C32_resharing_preserves_group_key"
   ],
   "note": "Proved in full, for every suite satisfying the laws and all inputs."
  },
  {
   "property": "C33",
   "status": "proved",
   "theorems": [
    "C33_history_preserves_group_key",
    "C33_next_epoch_exists",
    "C33_single_key_is_a_sharing",
    "C33_key_generation_is_a_sharing"
   ],
   "note": "Proved in full, for every suite satisfying the laws and all inputs."
  },
  {
   "property": "C34",
   "status": "proved",
   "theorems": [
    "C34_bootstrap_fixes_the_degree",
    "C34_resharing_degree_unbounded"
   ],
   "note": "Refuted degree bound (F8), witness by computation."
  },
  {
   "property": "C35",
   "status": "proved",
   "theorems": [
    "C35_verify_equals_regeneration"
   ],
   "note": "Proved in full, for every suite satisfying the laws and all inputs."
  },
  {
   "property": "C36",
   "status": "proved",
   "theorems": [
    "C36_verification_is_schnorr",
    "C36_one_valid_response"
   ],
   "note": "Proved in full, for every suite satisfying the laws and all inputs."
  },
  {
   "property": "C37",
   "status": "proved",
   "theorems": [
    "C37_lists_are_consistent",
    "C37_every_nonce_has_its_own_randomness"
   ],
   "note": "Proved in full, for every suite satisfying the laws and all inputs."
  },
  {
   "property": "C38",
   "status": "proved",
   "theorems": [
    "C38_sign_outcome",
    "C38_failure_keeps_the_list",
    "C38_largest_position_panics"
   ],
   "note": "Proved in full, for every suite satisfying the laws and all inputs."
  },
  {
   "property": "C39",
   "status": "proved",
   "theorems": [
    "C39_sign_consumes_its_pair"
   ],
   "note": "Proved in full, for every suite satisfying the laws and all inputs."
  },
  {
   "property": "C40",
   "status": "proved",
   "theorems": [
    "C40_pairs_used_and_left",
    "C40_no_pair_used_twice"
   ],
   "note": "Proved in full, for every suite satisfying the laws and all inputs."
  },
  {
   "property": "C41",
   "status": "proved",
   "theorems": [
    "C41_reuse_reveals_key"
   ],
   "note": "Proved in full, for every suite satisfying the laws and all inputs."
  },
  {
   "property": "C42",
   "status": "proved",
   "theorems": [
    "C42_honest_signature_share_checks"
   ],
   "note": "Proved in full, for every suite satisfying the laws and all inputs."
  },
  {
   "property": "C43",
   "status": "proved",
   "theorems": [
    "C43_honest_signers_produce_a_valid_signature",
    "C43_after_key_generation",
    "C43_after_resharings",
    "C43_with_precomputed_lists"
   ],
   "note": "Proved in full, for every suite satisfying the laws and all inputs."
  },
  {
   "property": "C44",
   "status": "proved",
   "theorems": [
    "C44_aggregate_returns_only_valid_signatures",
    "C44_result_is_for_the_given_message_and_key"
   ],
   "note": "Proved in full, for every suite satisfying the laws and all inputs."
  },
  {
   "property": "C45",
   "status": "proved",
   "theorems": [
    "C45_blame_is_exact",
    "C45_honest_signer_never_blamed",
    "C45_blame_is_not_empty"
   ],
   "note": "Proved in full, for every suite satisfying the laws and all inputs."
  },
  {
   "property": "C46",
   "status": "proved",
   "theorems": [
    "C46_state_after_any_history",
    "C46_outcome_of_an_inclusion"
   ],
   "note": "Proved in full, for every suite satisfying the laws and all inputs."
  },
  {
   "property": "C47",
   "status": "proved",
   "theorems": [
    "C47_remaining_signers",
    "C47_finalize"
   ],
   "note": "Proved in full, for every suite satisfying the laws and all inputs."
  },
  {
   "property": "C48",
   "status": "proved",
   "theorems": [
    "C48_surplus_signer_poisons"
   ],
   "note": "Weakness (F9)."
  },
  {
   "property": "C49",
   "status": "proved",
   "theorems": [
    "C49_finalize_ignores_the_threshold",
    "C49_no_signers_panics",
    "C49_below_threshold_names_nobody"
   ],
   "note": "Weakness (F10)."
  },
  {
   "property": "C50",
   "status": "proved",
   "theorems": [
    "C50_second_inclusion_mixes"
   ],
   "note": "Weakness (F9)."
  },
  {
   "property": "C51",
   "status": "proved",
   "theorems": [
    "C51_order_of_calls_irrelevant"
   ],
   "note": "Proved in full, for every suite satisfying the laws and all inputs."
  },
  {
   "property": "C52",
   "status": "proved",
   "theorems": [
    "C52_challenge_transcript",
    "C52_commitment_list_transcript",
    "C52_binding_transcript",
    "C52_proof_of_knowledge_transcript",
    "C52_complaint_transcript",
    "C52_nonce_transcript"
   ],
   "note": "Proved in full, for every suite satisfying the laws and all inputs."
  },
  {
   "property": "C53",
   "status": "proved",
   "theorems": [
    "C53_scalar_oracles_are_separated",
    "C53_byte_oracles_are_separated",
    "C53_message_inputs_across_suites"
   ],
   "note": "Separation inside one suite is proved; coinciding inputs across suites are exhibited (F16)."
  },
  {
   "property": "C54",
   "status": "proved",
   "theorems": [
    "C54_keys_and_parameters_round_trip",
    "C54_dkg_values_round_trip",
    "C54_dkg_states_round_trip",
    "C54_signing_values_round_trip"
   ],
   "note": "Proved in full, for every suite satisfying the laws and all inputs."
  },
  {
   "property": "C55",
   "status": "proved",
   "theorems": [
    "C55_invalid_parameters_are_read",
    "C55_any_eight_bytes_are_parameters",
    "C55_states_have_several_encodings"
   ],
   "note": "Weakness (F11)."
  },
  {
   "property": "C56",
   "status": "proved",
   "theorems": [
    "C56_restarts_are_transparent",
    "C56_session_states_are_real"
   ],
   "note": "Proved in full, for every suite satisfying the laws and all inputs."
  },
  {
   "property": "C57",
   "status": "proved",
   "theorems": [
    "C57_drop_share"
   ],
   "note": "Proved in full, for every suite satisfying the laws and all inputs."
  },
  {
   "property": "C58",
   "status": "proved",
   "theorems": [
    "C58_unproven_complaint_removes_anyone"
   ],
   "note": "Weakness (F14)."
  },
  {
   "property": "C59",
   "status": "proved",
   "theorems": [
    "C59_round_one_bytes_are_read_as_round_two",
    "C59_round_two_can_be_repeated"
   ],
   "note": "Weakness (F15)."
  },
  {
   "property": "C60",
   "status": "proved",
   "theorems": [
    "C60_messages_have_one_encoding",
    "C60_signature_bytes_are_not_malleable"
   ],
   "note": "Proved in full, for every suite satisfying the laws and all inputs."
  },
  {
   "property": "C61",
   "status": "proved",
   "theorems": [
    "C61_followers_agree_and_hold_keys",
    "C61_followers_can_sign"
   ],
   "note": "Proved in full, for every suite satisfying the laws and all inputs."
  },
  {
   "property": "C62",
   "status": "proved",
   "theorems": [
    "C62_same_list_same_outcome",
    "C62_same_list_same_view",
    "C62_view_is_usable",
    "C62_equal_indices_split_the_view"
   ],
   "note": "Agreement for distinct indices; the failure with duplicate indices is exhibited (F18)."
  },
  {
   "property": "C63",
   "status": "proved",
   "theorems": [
    "C63_commitment_labels_are_ignored",
    "C63_mislabelled_commitment_breaks_key_check"
   ],
   "note": "Weakness (F19)."
  },
  {
   "property": "C64",
   "status": "proved",
   "theorems": [
    "C64_index_zero_blocks_finish"
   ],
   "note": "Weakness (F20)."
  },
  {
   "property": "C65",
   "status": "proved",
   "theorems": [
    "C65_new_dealer_randomness",
    "C65_new_signer_randomness",
    "C65_bootstrap_randomness",
    "C65_new_draws_nothing",
    "C65_reshare_randomness",
    "C65_round_two_randomness"
   ],
   "note": "Proved in full, for every suite satisfying the laws and all inputs."
  },
  {
   "property": "C66",
   "status": "proved",
   "theorems": [
    "C66_equality_is_identity",
    "C66_signers_compare_by_index",
    "C66_participant_order_is_unlawful"
   ],
   "note": "Participant's PartialOrd contract is refuted (F17)."
  },
  {
   "property": "C67",
   "status": "proved",
   "theorems": [
    "C67_announced_sizes_are_exact"
   ],
   "note": "Proved in full, for every suite satisfying the laws and all inputs."
  },
  {
   "property": "C68",
   "status": "proved",
   "theorems": [
    "C68_key_generation_and_signing_despite_misbehaviour"
   ],
   "note": "Proved in full, for every suite satisfying the laws and all inputs."
  },
  {
   "property": "C69",
   "status": "proved",
   "theorems": [
    "C69_attempt_succeeds_or_names_culprits",
    "C69_failures_are_bounded",
    "C69_signature_within_bound"
   ],
   "note": "Proved in full, for every suite satisfying the laws and all inputs."
  },
  {
   "property": "C70",
   "status": "proved",
   "theorems": [
    "C70_resharing_accepts_any_keys",
    "C70_one_dealer_decides_the_group_key",
    "C70_one_wrong_key_changes_the_group_key"
   ],
   "note": "Weakness (F22)."
  },
  {
   "property": "C71",
   "status": "proved",
   "theorems": [
    "C71_forged_message_frames_the_signer",
    "C71_foreign_messages_are_ignored"
   ],
   "note": "Weakness (F23)."
  },
  {
   "property": "C72",
   "status": "proved",
   "theorems": [
    "C72_moving_adversary_learns_nothing",
    "C72_key_generation_is_an_epoch",
    "C72_resharing_is_an_epoch",
    "C72_histories_are_chains"
   ],
   "note": "Proved in full, for every suite satisfying the laws and all inputs."
  },
  {
   "property": "C73",
   "status": "proved",
   "theorems": [
    "C73_debug_panics_or_agrees",
    "C73_sessions_agree_until_a_panic",
    "C73_builds_agree_in_normal_use"
   ],
   "note": "Proved in full, for every suite satisfying the laws and all inputs."
  },
  {
   "property": "C74",
   "status": "proved",
   "theorems": [
    "C74_nothing_panics_after_round_two",
    "C74_verifying_keys_never_panic"
   ],
   "note": "Proved in full, for every suite satisfying the laws and all inputs."
  },
  {
   "property": "C75",
   "status": "proved",
   "theorems": [
    "C75_dropped_values_keep_no_secret",
    "C75_finish_erases_the_shares",
    "C75_dropped_values_are_zero"
   ],
   "note": "Proved in full, for every suite satisfying the laws and all inputs."
  },
  {
   "property": "C76",
   "status": "proved",
   "theorems": [
    "C76_buffer_refines_the_list",
    "C76_used_pairs_are_wiped_refuted",
    "C76_last_pair_reveals_the_key"
   ],
   "note": "The documented claim (used pairs are wiped from memory) is refuted (F24)."
  },
  {
   "property": "C77",
   "status": "proved",
   "theorems": [
    "C77_storing_the_current_list_is_safe",
    "C77_restart_is_possible",
    "C77_stored_lists_are_single_use_refuted"
   ],
   "note": "Single use of a stored list is refuted for old copies (F25)."
  },
  {
   "property": "C78",
   "status": "proved",
   "theorems": [
    "C78_signatures_fit_every_key"
   ],
   "note": "Proved in full, for every suite satisfying the laws and all inputs."
  },
  {
   "property": "C79",
   "status": "proved",
   "theorems": [
    "C79_a_bad_message_removes_an_honest_dealer",
    "C79_reflected_share_is_accepted_by_decryption"
   ],
   "note": "Weakness (F26)."
  },
  {
   "property": "C80",
   "status": "proved",
   "theorems": [
    "C80_complaints_reveal_the_makers_shares",
    "C80_the_network_chooses_the_accused"
   ],
   "note": "Weakness (F27)."
  },
  {
   "property": "C81",
   "status": "proved",
   "theorems": [
    "C81_round_one_messages_fit_every_session",
    "C81_key_proofs_change_roles",
    "C81_secret_proofs_change_roles"
   ],
   "note": "Weakness (F28)."
  },
  {
   "property": "C82",
   "status": "proved",
   "theorems": [
    "C82_blind_dealer_passes"
   ],
   "note": "Weakness (F28). The scalars are quantified before the point, so they do not depend on its logarithm."
  },
  {
   "property": "C83",
   "status": "proved",
   "theorems": [
    "C83_complaints_select_the_group_key",
    "C83_the_keys_differ"
   ],
   "note": "Weakness (F29)."
  },
  {
   "property": "C84",
   "status": "proved",
   "theorems": [
    "C84_signer_with_another_key_is_named"
   ],
   "note": "Proved in full, for every suite satisfying the laws and all inputs."
  },
  {
   "property": "C85",
   "status": "proved",
   "theorems": [
    "C85_checked_resharing_keeps_the_key",
    "C85_honest_dealers_pass_the_check"
   ],
   "note": "The checks are the caller's; the library makes none of them (C34, C70)."
  },
  {
   "property": "C86",
   "status": "proved",
   "theorems": [
    "C86_unused_pairs_stay_in_order",
    "C86_position_of_a_published_pair",
    "C86_equal_positions_use_every_second_pair",
    "C86_signer_with_another_pair_is_named"
   ],
   "note": "Proved in full, for every suite satisfying the laws and all inputs."
  },
  {
   "property": "C87",
   "status": "proved",
   "theorems": [
    "C87_signer_in_another_session_is_named",
    "C87_order_of_the_signers",
    "C87_signer_for_another_group_key_is_named",
    "C87_order_is_irrelevant_refuted"
   ],
   "note": "Proved in full, for every suite satisfying the laws and all inputs."
  },
  {
   "property": "C88",
   "status": "proved",
   "theorems": [
    "C88_key_proofs_are_simulated",
    "C88_complaints_are_simulated",
    "C88_signatures_are_simulated",
    "C88_two_signatures_reveal_the_key",
    "C88_two_key_proofs_reveal_the_key"
   ],
   "note": "Proved in full, for every suite satisfying the laws and all inputs."
  },
  {
   "property": "C89",
   "status": "proved",
   "theorems": [
    "C89_sessions_are_simulated"
   ],
   "note": "Proved in full, for every suite satisfying the laws and all inputs."
  },
  {
   "property": "C90",
   "status": "proved",
   "theorems": [
    "C90_dealer_is_simulated"
   ],
   "note": "Proved in full, for every suite satisfying the laws and all inputs."
  },
  {
   "property": "C91",
   "status": "proved",
   "theorems": [
    "C91_group_key_is_one_to_one",
    "C91_every_key_for_one_secret"
   ],
   "note": "Proved in full, for every suite satisfying the laws and all inputs."
  },
  {
   "property": "C92",
   "status": "proved",
   "theorems": [
    "C92_states_carry_accepted_parameters",
    "C92_refused_outside_the_range",
    "C92_dealing_outside_the_range",
    "C92_signers_ignore_the_parameters",
    "C92_aggregator_ignores_the_threshold"
   ],
   "note": "Proved in full, for every suite satisfying the laws and all inputs."
  },
  {
   "property": "C93",
   "status": "proved",
   "theorems": [
    "C93_one_group_key_for_life",
    "C93_every_epoch_signs",
    "C93_every_epoch_names_culprits",
    "C93_every_step_succeeds"
   ],
   "note": "The checks are the caller's, as in C85. Because of C26 a further resharing needs dealers whose indices do not exceed their number, e.g. it works between committees numbered 1..n but not starting from holders 5, 6, 7, 8."
  },
  {
   "property": "C94",
   "status": "proved",
   "theorems": [
    "C94_group_key_is_the_key_of_index_zero",
    "C94_t_keys_determine_the_others",
    "C94_t_keys_give_the_group_key",
    "C94_fewer_keys_fit_every_group_key"
   ],
   "note": "Proved in full, for every suite satisfying the laws and all inputs."
  },
  {
   "property": "C95",
   "status": "proved",
   "theorems": [
    "C95_text_determines_the_error",
    "C95_wrapped_errors_carry_the_text",
    "C95_missing_signatures_are_called_invalid"
   ],
   "note": "Proved in full, for every suite satisfying the laws and all inputs."
  },
  {
   "property": "C96",
   "status": "proved",
   "theorems": [
    "C96_identity_key_accepts_every_message",
    "C96_only_the_identity_accepts_a_pair_twice",
    "C96_identity_dealer_passes_round_one",
    "C96_shares_for_an_identity_key_are_public",
    "C96_resharing_may_end_with_the_identity"
   ],
   "note": "Proved in full, for every suite satisfying the laws and all inputs."
  },
  {
   "property": "C97",
   "status": "proved",
   "theorems": [
    "C97_only_the_nonce_point_varies",
    "C97_every_set_of_signers_can_have_made_it"
   ],
   "note": "Proved in full, for every suite satisfying the laws and all inputs."
  },
  {
   "property": "C98",
   "status": "proved",
   "theorems": [
    "C98_nonces_come_from_their_own_draws",
    "C98_no_nonce_is_used_twice"
   ],
   "note": "Proved in full, for every suite satisfying the laws and all inputs."
  },
  {
   "property": "C99",
   "status": "proved",
   "theorems": [
    "C99_two_group_keys_reveal_the_key",
    "C99_two_binding_factors_fit_every_key"
   ],
   "note": "Proved in full, for every suite satisfying the laws and all inputs."
  },
  {
   "property": "C100",
   "status": "proved",
   "theorems": [
    "C100_secrets_are_shown",
    "C100_debug_text_determines_the_value",
    "C100_logged_error_reveals_shares"
   ],
   "note": "Proved in full, for every suite satisfying the laws and all inputs."
  },
  {
   "property": "C101",
   "status": "proved",
   "theorems": [
    "C101_complaints_reveal_the_old_keys",
    "C101_complaints_reveal_the_accused",
    "C101_the_network_chooses_the_accused",
    "C101_the_network_learns_the_secret"
   ],
   "note": "Weakness (F37)."
  },
  {
   "property": "C102",
   "status": "proved",
   "theorems": [
    "C102_prescribed_key_is_simulated"
   ],
   "note": "Proved in full, for every suite satisfying the laws and all inputs."
  },
  {
   "property": "C103",
   "status": "proved",
   "theorems": [
    "C103_outcome_of_finish",
    "C103_blame_panics_exactly",
    "C103_round_two_without_commitments",
    "C103_aggregate_panics_exactly"
   ],
   "note": "Proved in full, for every suite satisfying the laws and all inputs."
  },
  {
   "property": "C104",
   "status": "proved",
   "theorems": [
    "C104_keys_and_partial_signatures_are_the_same_bytes",
    "C104_encodings_carry_no_type",
    "C104_wrong_keys_are_usable",
    "C104_commitments_are_no_nonce_list"
   ],
   "note": "Proved in full, for every suite satisfying the laws and all inputs."
  },
  {
   "property": "C105",
   "status": "proved",
   "theorems": [
    "C105_participants_from_one_state",
    "C105_complaints_from_one_state",
    "C105_encryption_nonces_repeat",
    "C105_nonce_lists_from_one_state",
    "C105_stuck_generator"
   ],
   "note": "Proved in full, for every suite satisfying the laws and all inputs."
  },
  {
   "property": "C106",
   "status": "proved",
   "theorems": [
    "C106_returned_keys_are_of_the_blamed",
    "C106_unregistered_makers_are_not_reported",
    "C106_shared_keys_are_ambiguous",
    "C106_one_key_under_two_indices",
    "C106_a_second_call_blames_every_maker",
    "C106_reported_again_without_effect"
   ],
   "note": "Proved in full, for every suite satisfying the laws and all inputs."
  },
  {
   "property": "C107",
   "status": "proved",
   "theorems": [
    "C107_documented_key_generation",
    "C107_documented_resharing",
    "C107_documented_signing",
    "C107_documented_tour"
   ],
   "note": "Proved in full, for every suite satisfying the laws and all inputs."
  },
  {
   "property": "C108",
   "status": "proved",
   "theorems": [
    "C108_documented_flagging",
    "C108_documented_blaming",
    "C108_documented_blaming_unbounded_refuted"
   ],
   "note": "Proved in full, for every suite satisfying the laws and all inputs."
  },
  {
   "property": "C109",
   "status": "proved",
   "theorems": [
    "C109_read_values_travel",
    "C109_returned_values_travel",
    "C109_sessions_over_the_wire"
   ],
   "note": "Proved in full, for every suite satisfying the laws and all inputs."
  },
  {
   "property": "C110",
   "status": "proved",
   "theorems": [
    "C110_order_of_shares",
    "C110_order_of_arrival",
    "C110_repeated_senders_refuted"
   ],
   "note": "Proved in full, for every suite satisfying the laws and all inputs."
  },
  {
   "property": "C111",
   "status": "proved",
   "theorems": [
    "C111_importing_a_key",
    "C111_resharing_with_a_wrong_share"
   ],
   "note": "Proved in full, for every suite satisfying the laws and all inputs."
  },
  {
   "property": "C112",
   "status": "proved",
   "theorems": [
    "C112_errors_of_each_call",
    "C112_exactly_these_errors"
   ],
   "note": "Proved in full, for every suite satisfying the laws and all inputs."
  },
  {
   "property": "C113",
   "status": "proved",
   "theorems": [
    "C113_computed_against_documented",
    "C113_documented_formula_refuted"
   ],
   "note": "Proved in full, for every suite satisfying the laws and all inputs."
  },
  {
   "property": "C114",
   "status": "proved",
   "theorems": [
    "C114_keys_used_decide",
    "C114_keys_of_two_epochs",
    "C114_wrong_keys_can_cancel"
   ],
   "note": "Proved in full, for every suite satisfying the laws and all inputs."
  },
  {
   "property": "C115",
   "status": "proved",
   "theorems": [
    "C115_one_field_altered",
    "C115_altered_complaint_convicts_the_named_receiver",
    "C115_complaint_test",
    "C115_complaint_test_unbounded_refuted"
   ],
   "note": "Proved in full, for every suite satisfying the laws and all inputs."
  },
  {
   "property": "C116",
   "status": "proved",
   "theorems": [
    "C116_excluded_participants_obtain_keys",
    "C116_excluded_participants_sign",
    "C116_accepted_participants_share_that_key"
   ],
   "note": "Proved in full, for every suite satisfying the laws and all inputs."
  },
  {
   "property": "C117",
   "status": "proved",
   "theorems": [
    "C117_too_few_dealers_change_the_group_key",
    "C117_declared_threshold_is_enforced",
    "C117_one_dealer_goes_unnoticed"
   ],
   "note": "Proved in full, for every suite satisfying the laws and all inputs."
  },
  {
   "property": "C118",
   "status": "proved",
   "theorems": [
    "C118_different_dealers_same_group_key",
    "C118_signing_fails_and_names_nobody",
    "C118_comparing_group_keys_does_not_help"
   ],
   "note": "Proved in full, for every suite satisfying the laws and all inputs."
  },
  {
   "property": "C119",
   "status": "proved",
   "theorems": [
    "C119_forged_complaints_choose_the_dealers",
    "C119_one_dealer_owns_the_group_key",
    "C119_an_exclusion_hands_over_the_group_key"
   ],
   "note": "Proved in full, for every suite satisfying the laws and all inputs."
  },
  {
   "property": "C120",
   "status": "proved",
   "theorems": [
    "C120_matching_lengths_are_never_noticed",
    "C120_other_lengths_stop_every_signature"
   ],
   "note": "Proved in full, for every suite satisfying the laws and all inputs."
  },
  {
   "property": "C121",
   "status": "proved",
   "theorems": [
    "C121_the_proofs_cover_the_first_point_only",
    "C121_camps_agree_on_the_group_key_iff_the_public_key_is_the_same",
    "C121_keys_of_both_camps",
    "C121_signing_fails_and_names_nobody"
   ],
   "note": "Proved in full, for every suite satisfying the laws and all inputs."
  },
  {
   "property": "C122",
   "status": "proved",
   "theorems": [
    "C122_an_altered_commitment_is_accepted",
    "C122_the_receiver_is_convicted"
   ],
   "note": "Proved in full, for every suite satisfying the laws and all inputs."
  },
  {
   "property": "C123",
   "status": "proved",
   "theorems": [
    "C123_one_encoding_if_each_point_has",
    "C123_another_encoding_if_some_point_has",
    "C123_signatures_malleable_exactly_at_the_identity"
   ],
   "note": "Does not assume canonical point decoding (F55)."
  },
  {
   "property": "C124",
   "status": "proved",
   "theorems": [
    "C124_incomplete_set_signs",
    "C124_incomplete_set_unbounded_refuted"
   ],
   "note": "Proved in full, for every suite satisfying the laws and all inputs."
  },
  {
   "property": "C125",
   "status": "proved",
   "theorems": [
    "C125_instrumented_values",
    "C125_new_participant_trace",
    "C125_dealing_trace",
    "C125_round_two_trace",
    "C125_accepted_shares_trace",
    "C125_finish_trace",
    "C125_nonces_trace",
    "C125_comparison_trace",
    "C125_drop_trace",
    "C125_sign_trace",
    "C125_sign_trace_distinct",
    "C125_position_hidden_refuted",
    "C125_repetition_hidden_refuted",
    "C125_drop_trace_shows",
    "C125_dealing_trace_shows",
    "C125_round_two_trace_shows",
    "C125_sign_trace_shows"
   ],
   "note": "Operations and test outcomes only; the running time of one operation (e.g. of the scalar multiplication or the field comparison of the curve library) is not modelled."
  },
  {
   "property": "C126",
   "status": "proved",
   "theorems": [
    "C126_enough_memory",
    "C126_first_round_stops_before_the_length_check",
    "C126_matching_lists_unaffected",
    "C126_reshare_stops",
    "C126_aggregator_stops"
   ],
   "note": "Weakness (F57). Reservations made by the serialization library while reading are the subject of C138."
  },
  {
   "property": "C127",
   "status": "proved",
   "theorems": [
    "C127_sign_is_rfc_sign",
    "C127_nonces_are_rfc_commit",
    "C127_aggregate_is_rfc_aggregate",
    "C127_verification",
    "C127_any_profile_signs",
    "C127_mixed_session",
    "C127_signatures_are_rfc_signatures_refuted"
   ],
   "note": "Weakness (F58)."
  },
  {
   "property": "C128",
   "status": "proved",
   "theorems": [
    "C128_common_participants",
    "C128_other_degree_is_flagged"
   ],
   "note": "Proved in full, for every suite satisfying the laws and all inputs."
  },
  {
   "property": "C129",
   "status": "proved",
   "theorems": [
    "C129_counted_calls_are_the_calls",
    "C129_work_of_preparing",
    "C129_work_of_first_round",
    "C129_work_of_second_round",
    "C129_work_of_finishing",
    "C129_work_of_public_keys",
    "C129_work_of_signing",
    "C129_resharing_work_is_bounded_refuted"
   ],
   "note": "Weakness (F59). Field operations, additions of points, key derivation and encryption are not counted; one msm term counts as one multiplication."
  },
  {
   "property": "C130",
   "status": "proved",
   "theorems": [
    "C130_key_generation_benchmark",
    "C130_lists_are_not_tied_to_a_signer",
    "C130_signing_benchmark",
    "C130_maker_of_the_list_learns_the_key"
   ],
   "note": "Weakness (F60). Generator states at the iterations are arbitrary, which covers OsRng."
  },
  {
   "property": "C131",
   "status": "proved",
   "theorems": [
    "C131_keys_after_a_removal",
    "C131_one_value_by_chance"
   ],
   "note": "The test blames and finishes in another order; the states do not depend on each other. The dealer's index is at most n, as in C115 (see C26)."
  },
  {
   "property": "C132",
   "status": "proved",
   "theorems": [
    "C132_do_keygen_exact",
    "C132_keygen_test_passes",
    "C132_signing_tests_pass",
    "C132_tests_pass_or_panic",
    "C132_signers_whatever_the_order",
    "C132_drop_test",
    "C132_lagrange_test_passes",
    "C132_lagrange_blocks_test_the_list_only"
   ],
   "note": "Weakness (F61). Serialization is C54, C60, C67; the tests with misbehaviour are C108, C111, C115, C124, C128, C131."
  },
  {
   "property": "C133",
   "status": "proved",
   "theorems": [
    "C133_all_finish_alike",
    "C133_never_stuck",
    "C133_restarts_change_nothing",
    "C133_decisions_are_final",
    "C133_served_hold_their_keys",
    "C133_served_can_sign",
    "C133_resharing_keeps_the_key"
   ],
   "note": "Proved in full, for every suite satisfying the laws and all inputs."
  },
  {
   "property": "C134",
   "status": "proved",
   "theorems": [
    "C134_pairs_are_conserved",
    "C134_one_answer_per_pair",
    "C134_reloading_changes_nothing",
    "C134_complete_tables_give_signatures",
    "C134_whoever_answers_is_not_named",
    "C134_reserved_tables_can_finish",
    "C134_disjoint_tables_do_not_interfere"
   ],
   "note": "Proved in full, for every suite satisfying the laws and all inputs."
  },
  {
   "property": "C135",
   "status": "proved",
   "theorems": [
    "C135_obtained_keys_recover",
    "C135_the_group_key_never_changes",
    "C135_sessions_of_any_generation_finish"
   ],
   "note": "Proved in full, for every suite satisfying the laws and all inputs."
  },
  {
   "property": "C136",
   "status": "proved",
   "theorems": [
    "C136_accepted_under_another_key",
    "C136_accepted_for_another_message",
    "C136_a_second_owner_knows_the_first_secret",
    "C136_shifted_keys",
    "C136_one_commitment_two_challenges_reveal_the_key",
    "C136_one_commitment_two_keys_tie_their_secrets"
   ],
   "note": "Proved in full, for every suite satisfying the laws and all inputs."
  },
  {
   "property": "C137",
   "status": "proved",
   "theorems": [
    "C137_first_round",
    "C137_shares",
    "C137_complaints",
    "C137_keys_and_signing",
    "C137_whole_key_generation"
   ],
   "note": "Proved in full, for every suite satisfying the laws and all inputs."
  },
  {
   "property": "C138",
   "status": "proved",
   "theorems": [
    "C138_no_amplification",
    "C138_stops_or_answers",
    "C138_shortest_input_that_stops",
    "C138_when_reading_stops"
   ],
   "note": "Proved in full, for every suite satisfying the laws and all inputs."
  },
  {
   "property": "C139",
   "status": "proved",
   "theorems": [
    "C139_shares_are_uniform",
    "C139_group_key_is_uniform_given_the_shares",
    "C139_one_nonce_for_each_key"
   ],
   "note": "Proved in full, for every suite satisfying the laws and all inputs."
  },
  {
   "property": "C140",
   "status": "proved",
   "theorems": [
    "C140_checks_can_be_made_at_the_end",
    "C140_check_looks_at_every_point",
    "C140_every_mode_round_trips",
    "C140_sessions_are_checked",
    "C140_overwritten_entries_escape_later_checks",
    "C140_from_bytes_checks_every_point",
    "C140_sizes_are_exact_in_every_mode"
   ],
   "note": "Proved in full, for every suite satisfying the laws and all inputs."
  },
  {
   "property": "C141",
   "status": "proved",
   "theorems": [
    "C141_signatures_combine_iff_challenges_do",
    "C141_answers_combine_iff_challenges_do"
   ],
   "note": "Proved in full, for every suite satisfying the laws and all inputs."
  },
  {
   "property": "C142",
   "status": "proved",
   "theorems": [
    "C142_one_value",
    "C142_few_values_combine",
    "C142_few_keys_combine",
    "C142_signatures_accepted"
   ],
   "note": "Proved in full, for every suite satisfying the laws and all inputs."
  },
  {
   "property": "C143",
   "status": "proved",
   "theorems": [
    "C143_mixed_keys_combine"
   ],
   "note": "Proved in full, for every suite satisfying the laws and all inputs."
  },
  {
   "property": "C144",
   "status": "proved",
   "theorems": [
    "C144_instrumented_values",
    "C144_bootstrap_trace",
    "C144_new_trace",
    "C144_reshare_trace",
    "C144_blame_trace",
    "C144_finish_trace",
    "C144_session_trace",
    "C144_honest_session_trace",
    "C144_reshare_wipes",
    "C144_finish_wipes",
    "C144_failing_calls_wipe",
    "C144_blame_wipes"
   ],
   "note": "Proved in full, for every suite satisfying the laws and all inputs."
  },
  {
   "property": "C145",
   "status": "proved",
   "theorems": [
    "C145_choices_that_fit",
    "C145_keys_are_uniform_given_all_shares",
    "C145_resharing_refreshes"
   ],
   "note": "Proved in full, for every suite satisfying the laws and all inputs."
  },
  {
   "property": "C146",
   "status": "proved",
   "theorems": [
    "C146_every_secret_equally_likely",
    "C146_for_the_api"
   ],
   "note": "Proved in full, for every suite satisfying the laws and all inputs."
  },
  {
   "property": "C147",
   "status": "proved",
   "theorems": [
    "C147_pairs_are_uniform",
    "C147_choosing_nearly_doubles",
    "C147_the_two_endings",
    "C147_one_honest_dealer_is_not_enough",
    "C147_removing_two_may_depend"
   ],
   "note": "Proved in full, for every suite satisfying the laws and all inputs."
  },
  {
   "property": "C148",
   "status": "proved",
   "theorems": [
    "C148_each_set_of_dealers_is_unbiased",
    "C148_choosing_among_sets",
    "C148_every_ending",
    "C148_at_most_doubling_per_dealer"
   ],
   "note": "Proved in full, for every suite satisfying the laws and all inputs."
  },
  {
   "property": "C149",
   "status": "proved",
   "theorems": [
    "C149_key_proofs",
    "C149_complaint_proofs",
    "C149_false_complaints"
   ],
   "note": "Proved in full, for every suite satisfying the laws and all inputs."
  },
  {
   "property": "C150",
   "status": "proved",
   "theorems": [
    "C150_signatures_of_all_epochs",
    "C150_sign_gives_answers",
    "C150_histories_are_resharings",
    "C150_for_the_api"
   ],
   "note": "Proved in full, for every suite satisfying the laws and all inputs."
  },
  {
   "property": "C151",
   "status": "proved",
   "theorems": [
    "C151_partial_signatures",
    "C151_last_signer",
    "C151_unnoticed_errors",
    "C151_shares_and_verifying_keys"
   ],
   "note": "Proved in full, for every suite satisfying the laws and all inputs."
  },
  {
   "property": "C152",
   "status": "proved",
   "theorems": [
    "C152_messages_of_one_sharing_mix",
    "C152_replayed_messages_give_the_same_keys",
    "C152_a_message_of_an_earlier_epoch"
   ],
   "note": "Proved in full, for every suite satisfying the laws and all inputs."
  },
  {
   "property": "C153",
   "status": "proved",
   "theorems": [
    "C153_messages_of_all_attempts_mix",
    "C153_complaints_of_all_attempts_add_up",
    "C153_fewer_complaints_fit_every_secret"
   ],
   "note": "Proved in full, for every suite satisfying the laws and all inputs."
  },
  {
   "property": "C154",
   "status": "proved",
   "theorems": [
    "C154_receivers_of_all_groups_add_up",
    "C154_fewer_receivers_fit_every_secret"
   ],
   "note": "Proved in full, for every suite satisfying the laws and all inputs."
  }
 ]
}
