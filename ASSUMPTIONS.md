# What `Print Assumptions` lists

Generated by tools/assumptions.py from the theorems of rocq/theories/Props.

## Closed under the global context (no axioms)

C01_chomp_consecutive, C02_chomp_never_reorders, C03_chomp_after_refusal_partial, C03_chomp_after_refusal_refuted, C04_chomp_u16_partial, C04_chomp_u16_refuted, C05_numeric_roundtrip, C06_alphanumeric_roundtrip, C07_latin1_roundtrip, C08_utf8_partial, C08_utf8_refuted, C09_mixed_segments, C10_prefix_rejected, C10_truncated_rejected, C11_unsupported_mode, C12_payload_never_panics_refuted, C12_payload_no_version_partial, C12_payload_panics_partial, C13_numeric_length_partial, C13_numeric_length_refuted, C14_division_partial, C14_division_refuted, C14_division_zero, C14_product, C14_sum, C15_undamaged, C16_cancelling, C16_refuted, C16_restored_partial, C17_accepted_partial, C17_check_is_vacuous, C17_refuted, C18_error_count, C19_correct_never_panics, C20_always_repaired, C20_refuted, C20_single_partial, C20_version_1_L, C21_intact, C22_classified_partial, C22_last_bit, C22_refuted, C22_repaired_partial, C22_silent_refuted, C23_error_iff, C23_fallback, C23_second_right, C24_accepted_partial, C24_refuted, C25_involution, C25_mask, C26_data, C26_versions, C27_each_once, C27_onto, C27_order, C28_blocks, C28_push, C28_unique, C29_capacity, C29_table, C30_alphanumeric, C30_latin1, C30_numeric, C30_roundtrip, C30_undamaged, C31_modules, C32_no_text, C32_rejected, C33_panics_partial, C33_refuted, C33_unknown_versions_partial, C34_agree, C35_info_partial, C35_refuted, C36_passed_on, C37_corrected, C37_damaged, C37_single, C38_default, C38_default_with_info, C38_last_wins, C38_missing, C38_no_error, C39_aborts, C39_no_error, C39_none, C39_one_each, C40_agree, C41_black_white, C42_accepted_partial, C42_default_partial, C42_panics_partial, C42_refuted, C43_refuted, C44_documented, C44_local, C50_extracted, C50_shows, C51_refuted, C53_evidence, C53_refused, C54_refuted, C72_only_panics_partial, C72_refuted, C72_tall_partial, C80_format_partial, C80_located_partial, C80_recoloured_partial, C80_refuted, C80_sampled_partial, C81_format_partial, C81_refuted, C85_covers, C85_framed, C85_margin_needed

## Axioms of the standard library: `ClassicalDedekindReals.sig_forall_dec`, `FunctionalExtensionality.functional_extensionality_dep`

C61_refuted, C64_unique

## Axioms of the standard library: `ClassicalDedekindReals.sig_forall_dec`, `ClassicalDedekindReals.sig_not_dec`, `FunctionalExtensionality.functional_extensionality_dep`

C59_refuted, C60_no_decoys, C63_not_in_the_way

## Axioms of the standard library: `ClassicalDedekindReals.sig_forall_dec`, `ClassicalDedekindReals.sig_not_dec`, `Classical_Prop.classic`, `FunctionalExtensionality.functional_extensionality_dep`

C43_default_partial, C43_used_partial, C45_blank, C45_few_changes, C46_no_panic, C47_candidates, C47_locations, C48_exact, C48_perfect, C48_rejected, C49_orientation, C51_distorted_partial, C51_inside_partial, C51_outside_partial, C52_sampled, C54_causes_partial, C55_version, C56_decoded, C56_sampled, C57_black_and_white, C57_squares, C57_symbol, C57_two_tones, C58_found, C59_white_partial, C60_among, C60_located, C60_one, C60_only, C60_painted, C61_varied_partial, C62_among, C62_located, C62_one, C62_only, C62_sampled, C63_all, C63_page, C64_exact, C64_sampling, C64_text, C65_drawn, C65_found, C66_refuted, C66_tested_partial, C67_among, C67_damaged, C67_one, C67_page, C68_exact, C68_sampling, C68_text, C69_sampled, C69_text, C70_image_partial, C70_pixel_partial, C70_refuted, C71_decode, C71_pixel, C71_symbol, C72_boxes_partial, C72_version_1_partial, C73_found, C73_white, C74_middle_partial, C74_refuted, C75_located, C76_partial, C76_refuted, C77_sampled, C77_text, C78_decoded, C78_read, C79_decode, C79_image, C79_mixed, C79_pixel, C82_found, C82_white, C83_partial, C83_refuted, C84_decoded, C84_picture, C84_read, C84_sampled, C84_text, C85_all, C85_among, C85_found, C85_located, C85_one, C85_only, C86_apart, C86_blank, C86_close, C86_drawn, C86_ink, C86_large, C86_left, C86_lone, C86_near, C86_paper, C86_shown, C86_text, C87_cross, C87_diagonal, C87_locations, C87_none, C88_bars, C88_columns, C88_stripes, C89_candidates, C89_page, C89_painted, C89_read, C90_damaged, C90_default, C90_invariant, C90_same, C90_with_info, C91_page, C91_painted
