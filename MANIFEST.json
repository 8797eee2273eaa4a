{
 "claims": [
  {
   "property": "C01",
   "status": "proved",
   "theorems": [
    "C01_chomp_consecutive"
   ],
   "note": ""
  },
  {
   "property": "C02",
   "status": "proved",
   "theorems": [
    "C02_chomp_never_reorders"
   ],
   "note": ""
  },
  {
   "property": "C03",
   "status": "partial",
   "theorems": [
    "C03_chomp_after_refusal_refuted",
    "C03_chomp_after_refusal_partial"
   ],
   "note": "False as stated: after chomp(3) on one byte, a refused chomp(8) makes chomp(5) fail. Proved for refused sizes outside 1..8 and for at most four bits left."
  },
  {
   "property": "C04",
   "status": "partial",
   "theorems": [
    "C04_chomp_u16_refuted",
    "C04_chomp_u16_partial"
   ],
   "note": "False above 16 bits: 17..23 bits silently drop the first byte, 24 and more panic. Proved for all sizes 0..16."
  },
  {
   "property": "C05",
   "status": "proved",
   "theorems": [
    "C05_numeric_roundtrip"
   ],
   "note": ""
  },
  {
   "property": "C06",
   "status": "proved",
   "theorems": [
    "C06_alphanumeric_roundtrip"
   ],
   "note": ""
  },
  {
   "property": "C07",
   "status": "proved",
   "theorems": [
    "C07_latin1_roundtrip"
   ],
   "note": ""
  },
  {
   "property": "C08",
   "status": "partial",
   "theorems": [
    "C08_utf8_refuted",
    "C08_utf8_partial"
   ],
   "note": "False: UTF-8 text without a byte 0xC3 is read as ISO 8859-1. Proved: exactly the texts that are ASCII or contain a byte 0xC3 round-trip."
  },
  {
   "property": "C09",
   "status": "proved",
   "theorems": [
    "C09_mixed_segments"
   ],
   "note": ""
  },
  {
   "property": "C10",
   "status": "proved",
   "theorems": [
    "C10_truncated_rejected",
    "C10_prefix_rejected"
   ],
   "note": "A stream cut inside the four bit mode indicator counts as ended (fewer than four bits left), as the standard allows."
  },
  {
   "property": "C11",
   "status": "proved",
   "theorems": [
    "C11_unsupported_mode"
   ],
   "note": ""
  },
  {
   "property": "C12",
   "status": "partial",
   "theorems": [
    "C12_payload_never_panics_refuted",
    "C12_payload_panics_partial",
    "C12_payload_no_version_partial"
   ],
   "note": "False: an odd alphanumeric segment whose last value is 45..63 panics. Proved: exactly those streams panic."
  },
  {
   "property": "C13",
   "status": "partial",
   "theorems": [
    "C13_numeric_length_refuted",
    "C13_numeric_length_partial"
   ],
   "note": "False: group values an encoder never writes print too many digits. Proved: always digits, at least n, exactly n iff all groups are in range."
  },
  {
   "property": "C14",
   "status": "partial",
   "theorems": [
    "C14_sum",
    "C14_product",
    "C14_division_refuted",
    "C14_division_zero",
    "C14_division_partial"
   ],
   "note": "False for division: 0/b gives 1/b. Sums, products and quotients of non-zero elements proved."
  },
  {
   "property": "C15",
   "status": "proved",
   "theorems": [
    "C15_undamaged"
   ],
   "note": ""
  },
  {
   "property": "C16",
   "status": "partial",
   "theorems": [
    "C16_cancelling",
    "C16_restored_partial",
    "C16_refuted"
   ],
   "note": "False: damage whose error values xor to zero is always rejected (any two codewords changed by the same value). Proved: for damage that meets no zero quotient in the first solve, an exact criterion for repair."
  },
  {
   "property": "C17",
   "status": "partial",
   "theorems": [
    "C17_accepted_partial",
    "C17_check_is_vacuous",
    "C17_refuted"
   ],
   "note": "False: only the first syndrome is checked, and the solver makes that check succeed whenever the first syndrome of the received block is not zero. Proved: what acceptance does imply."
  },
  {
   "property": "C18",
   "status": "proved",
   "theorems": [
    "C18_error_count"
   ],
   "note": ""
  },
  {
   "property": "C19",
   "status": "proved",
   "theorems": [
    "C19_correct_never_panics"
   ],
   "note": ""
  },
  {
   "property": "C20",
   "status": "partial",
   "theorems": [
    "C20_single_partial",
    "C20_refuted",
    "C20_version_1_L",
    "C20_always_repaired"
   ],
   "note": "False: e.g. at version 1-L damage to the codeword of x^1 or x^10 yields a different block, accepted silently. Proved: the exact criterion for every block structure, and the full statement for four of them, version 1-M among them."
  },
  {
   "property": "C21",
   "status": "proved",
   "theorems": [
    "C21_intact"
   ],
   "note": ""
  },
  {
   "property": "C22",
   "status": "partial",
   "theorems": [
    "C22_repaired_partial",
    "C22_last_bit",
    "C22_refuted",
    "C22_silent_refuted",
    "C22_classified_partial"
   ],
   "note": "False: the last bit is never repaired (one wrong bit suffices), and three wrong bits with a vanishing locator coefficient can silently give another level and mask. Proved for 417 of the 575 patterns with any second copy, for the patterns touching the last bit when the second copy is fairly damaged at most, and the exact outcome of all 575 (428 right, 103 decided by the second copy, 44 misread)."
  },
  {
   "property": "C23",
   "status": "proved",
   "theorems": [
    "C23_fallback",
    "C23_second_right",
    "C23_error_iff"
   ],
   "note": ""
  },
  {
   "property": "C24",
   "status": "partial",
   "theorems": [
    "C24_accepted_partial",
    "C24_refuted"
   ],
   "note": "False: only the first syndrome is checked. Proved: the accepted bits vanish at the first root."
  },
  {
   "property": "C25",
   "status": "proved",
   "theorems": [
    "C25_mask",
    "C25_involution"
   ],
   "note": ""
  },
  {
   "property": "C26",
   "status": "proved",
   "theorems": [
    "C26_data",
    "C26_versions"
   ],
   "note": ""
  },
  {
   "property": "C27",
   "status": "proved",
   "theorems": [
    "C27_each_once",
    "C27_order",
    "C27_onto"
   ],
   "note": ""
  },
  {
   "property": "C28",
   "status": "proved",
   "theorems": [
    "C28_push",
    "C28_blocks",
    "C28_unique"
   ],
   "note": ""
  },
  {
   "property": "C29",
   "status": "proved",
   "theorems": [
    "C29_table",
    "C29_capacity"
   ],
   "note": ""
  },
  {
   "property": "C30",
   "status": "proved",
   "theorems": [
    "C30_undamaged",
    "C30_roundtrip",
    "C30_numeric",
    "C30_alphanumeric",
    "C30_latin1"
   ],
   "note": ""
  },
  {
   "property": "C31",
   "status": "proved",
   "theorems": [
    "C31_modules"
   ],
   "note": ""
  },
  {
   "property": "C32",
   "status": "proved",
   "theorems": [
    "C32_rejected",
    "C32_no_text"
   ],
   "note": ""
  },
  {
   "property": "C33",
   "status": "partial",
   "theorems": [
    "C33_panics_partial",
    "C33_unknown_versions_partial",
    "C33_refuted"
   ],
   "note": "False: a symbol whose payload has an odd alphanumeric segment with a last value of 45..63 panics. Proved: exactly those symbols panic, for every version."
  },
  {
   "property": "C34",
   "status": "proved",
   "theorems": [
    "C34_agree"
   ],
   "note": ""
  },
  {
   "property": "C35",
   "status": "partial",
   "theorems": [
    "C35_info_partial",
    "C35_refuted"
   ],
   "note": "False for total_data: it counts the data codewords only, not the error correction codewords as documented. Version, level and number of changed bits proved."
  },
  {
   "property": "C36",
   "status": "proved",
   "theorems": [
    "C36_passed_on"
   ],
   "note": ""
  },
  {
   "property": "C37",
   "status": "proved",
   "theorems": [
    "C37_corrected",
    "C37_damaged",
    "C37_single"
   ],
   "note": "Repairable is given three ways: per block by what correct() does, by an explicit criterion over the field, and for at most one wrong codeword per block."
  },
  {
   "property": "C38",
   "status": "proved",
   "theorems": [
    "C38_last_wins",
    "C38_missing",
    "C38_no_error",
    "C38_default",
    "C38_default_with_info"
   ],
   "note": ""
  },
  {
   "property": "C39",
   "status": "proved",
   "theorems": [
    "C39_one_each",
    "C39_none",
    "C39_aborts",
    "C39_no_error"
   ],
   "note": ""
  },
  {
   "property": "C40",
   "status": "proved",
   "theorems": [
    "C40_agree"
   ],
   "note": ""
  },
  {
   "property": "C41",
   "status": "proved",
   "theorems": [
    "C41_black_white"
   ],
   "note": ""
  },
  {
   "property": "C42",
   "status": "partial",
   "theorems": [
    "C42_accepted_partial",
    "C42_panics_partial",
    "C42_default_partial",
    "C42_refuted"
   ],
   "note": "False: images narrower or lower than one block, and block_mean_size below 3, panic. Proved: exactly which sizes are accepted."
  },
  {
   "property": "C43",
   "status": "partial",
   "theorems": [
    "C43_used_partial",
    "C43_default_partial",
    "C43_refuted"
   ],
   "note": "False as documented: the window has one block less on the right and at the bottom. Proved: the exact decision, in integers, over the window really used (up to 2^45 pixels, so that the quotient of doubles decides like the exact mean)."
  },
  {
   "property": "C44",
   "status": "proved",
   "theorems": [
    "C44_local",
    "C44_documented"
   ],
   "note": ""
  },
  {
   "property": "C45",
   "status": "proved",
   "theorems": [
    "C45_few_changes",
    "C45_blank"
   ],
   "note": ""
  },
  {
   "property": "C46",
   "status": "proved",
   "theorems": [
    "C46_no_panic"
   ],
   "note": ""
  },
  {
   "property": "C47",
   "status": "proved",
   "theorems": [
    "C47_locations",
    "C47_candidates"
   ],
   "note": ""
  },
  {
   "property": "C48",
   "status": "proved",
   "theorems": [
    "C48_exact",
    "C48_perfect",
    "C48_rejected"
   ],
   "note": ""
  },
  {
   "property": "C49",
   "status": "proved",
   "theorems": [
    "C49_orientation"
   ],
   "note": ""
  },
  {
   "property": "C50",
   "status": "proved",
   "theorems": [
    "C50_extracted",
    "C50_shows"
   ],
   "note": ""
  },
  {
   "property": "C51",
   "status": "partial",
   "theorems": [
    "C51_refuted",
    "C51_inside_partial",
    "C51_outside_partial",
    "C51_distorted_partial"
   ],
   "note": "False: detection reports a location for a sheared symbol whose samples leave the image, and get_pixel panics. Proved for version 1: extraction panics when a sample point is beyond the right or lower edge and succeeds when all are inside, up to 1/64 pixel. For versions above 1 with the search for the alignment pattern inside the image, the only cause of a panic is a module mapped beyond the right or lower edge."
  },
  {
   "property": "C52",
   "status": "proved",
   "theorems": [
    "C52_sampled"
   ],
   "note": "Also for finder centres with a common offset of up to 3/8 module, and for m = 1."
  },
  {
   "property": "C53",
   "status": "proved",
   "theorems": [
    "C53_refused",
    "C53_evidence"
   ],
   "note": "Whenever all probed points are refused; and data is never delivered without a black and a non-black pixel."
  },
  {
   "property": "C54",
   "status": "partial",
   "theorems": [
    "C54_causes_partial",
    "C54_refuted"
   ],
   "note": "False: a 46 by 44 pixel image with a sheared symbol panics in sampling. Proved: once preparation accepts the image, only sampling and the alphanumeric overrun of C33 can panic; detection never does."
  },
  {
   "property": "C55",
   "status": "proved",
   "theorems": [
    "C55_version"
   ],
   "note": ""
  },
  {
   "property": "C56",
   "status": "proved",
   "theorems": [
    "C56_sampled",
    "C56_decoded"
   ],
   "note": ""
  },
  {
   "property": "C57",
   "status": "proved",
   "theorems": [
    "C57_two_tones",
    "C57_black_and_white",
    "C57_squares",
    "C57_symbol"
   ],
   "note": "Also shows that dots of 2 by 2 pixels vanish and that gray paper of at most 250 comes out black where no ink is near."
  },
  {
   "property": "C58",
   "status": "proved",
   "theorems": [
    "C58_found"
   ],
   "note": "The candidate's coordinates are given exactly. What is in the way is a candidate within seven modules of the point where the scan first meets the pattern, as the code compares it."
  },
  {
   "property": "C59",
   "status": "partial",
   "theorems": [
    "C59_refuted",
    "C59_white_partial"
   ],
   "note": "False: a dark stripe with eleven white modules between it and the pattern hides it, because the first column of the pattern is then shorter than a tenth of the run before it and is dropped as noise. Proved when the row is white up to the pattern; C58 has the general condition."
  },
  {
   "property": "C60",
   "status": "proved",
   "theorems": [
    "C60_located",
    "C60_only",
    "C60_among",
    "C60_one",
    "C60_painted",
    "C60_no_decoys"
   ],
   "note": "Stated in stages: location, only location, text among the results, text as the only result, and from the painted image on. The two conditions on the symbol cannot be dropped (C61)."
  },
  {
   "property": "C61",
   "status": "partial",
   "theorems": [
    "C61_refuted",
    "C61_varied_partial"
   ],
   "note": "False: a version 3 symbol of a 53 byte URL has thirteen light modules in the third row in front of its upper right finder pattern and is not detected. Proved for symbols without such rows and without decoys."
  },
  {
   "property": "C62",
   "status": "proved",
   "theorems": [
    "C62_located",
    "C62_only",
    "C62_sampled",
    "C62_among",
    "C62_one"
   ],
   "note": "The corner reported as top left is the one of the symbol, not of the image, up to three eighths of a module. What is in the way is as in C58."
  },
  {
   "property": "C63",
   "status": "proved",
   "theorems": [
    "C63_all",
    "C63_page",
    "C63_not_in_the_way"
   ],
   "note": "That decoding does not panic is a hypothesis (C54): wrong combinations of finder patterns of different symbols are reported too and give errors, as in the example of two symbols side by side, where decoding gives four results."
  },
  {
   "property": "C64",
   "status": "proved",
   "theorems": [
    "C64_sampling",
    "C64_unique",
    "C64_exact",
    "C64_text"
   ],
   "note": "Images and coordinates up to 2^22. Everything acceptable means every place whose 17 modules looked at and middle have no wrong colour. The example is a symbol of version 2 whose rows become wider towards the bottom."
  },
  {
   "property": "C65",
   "status": "proved",
   "theorems": [
    "C65_found",
    "C65_drawn"
   ],
   "note": "Images and coordinates up to 2^22. It may still panic elsewhere (C51), and another pattern may be found first."
  },
  {
   "property": "C66",
   "status": "partial",
   "theorems": [
    "C66_refuted",
    "C66_tested_partial"
   ],
   "note": "False: the loop over the ring tests the left column twice and never the right one, and two corners and two border modules are not tested. Proved: the other 18 modules have their colours."
  },
  {
   "property": "C67",
   "status": "proved",
   "theorems": [
    "C67_among",
    "C67_one",
    "C67_page",
    "C67_damaged"
   ],
   "note": "Drawings as in C62. The example is a scratched symbol printed upside down."
  },
  {
   "property": "C68",
   "status": "proved",
   "theorems": [
    "C68_sampling",
    "C68_exact",
    "C68_text"
   ],
   "note": "The example is a slanted symbol. A panic when a point is beyond the right or lower edge is C51."
  },
  {
   "property": "C69",
   "status": "proved",
   "theorems": [
    "C69_sampled",
    "C69_text"
   ],
   "note": "About extraction from a given location: what detection finds of symbols at other angles than multiples of ninety degrees is C73 and C74."
  },
  {
   "property": "C70",
   "status": "partial",
   "theorems": [
    "C70_pixel_partial",
    "C70_image_partial",
    "C70_refuted"
   ],
   "note": "False: plain gray paper is prepared to black and plain white paper to white, because of the limits 5 and 250 for the mean. Proved where the mean of the window is between these limits in both images."
  },
  {
   "property": "C71",
   "status": "proved",
   "theorems": [
    "C71_pixel",
    "C71_symbol",
    "C71_decode"
   ],
   "note": "4 is the most that can be allowed: paper of value 250 without ink near comes out black (C57)."
  },
  {
   "property": "C72",
   "status": "partial",
   "theorems": [
    "C72_refuted",
    "C72_tall_partial",
    "C72_only_panics_partial",
    "C72_version_1_partial",
    "C72_boxes_partial"
   ],
   "note": "False: marks and boxes are cut at the width of the image instead of the height, so in an image that is wider than high, a dark sample in the last row of pixels panics. Proved: nothing changes in images that are not wider than high, a panic is all that can change, and where it happens for version 1."
  },
  {
   "property": "C73",
   "status": "proved",
   "theorems": [
    "C73_found",
    "C73_white"
   ],
   "note": "Drawings as in C69. The second case, a candidate found earlier, is C74. C73_white has nothing dark to the left of the pattern instead of the condition on runs. The example is a pattern turned with slope 3/4."
  },
  {
   "property": "C74",
   "status": "partial",
   "theorems": [
    "C74_refuted",
    "C74_middle_partial"
   ],
   "note": "False: rows are scanned from the top, a row through the upper part of a turned pattern already has the proportions, its refinement stays off the centre, and the later rows are skipped because a candidate is near. Proved: refinement from the middle row stays within half a module, from 18 pixels per module."
  },
  {
   "property": "C75",
   "status": "proved",
   "theorems": [
    "C75_located"
   ],
   "note": "Complements C47, C49 and C55, which say what every returned location is like. The example has three of four candidates, in another order."
  },
  {
   "property": "C76",
   "status": "partial",
   "theorems": [
    "C76_refuted",
    "C76_partial"
   ],
   "note": "False: along rows and columns the modules of a turned symbol seem larger, by a factor of 1/0.8 for slope 3/4, so the sides count too few modules; the exact centres of a version-1 symbol at that slope are not located at all. Proved: the version is right when sides times the excess stay below two modules, also for centres off by up to o pixels."
  },
  {
   "property": "C77",
   "status": "proved",
   "theorems": [
    "C77_sampled",
    "C77_text"
   ],
   "note": "Generalises C69, where all corners are off by the same vector. The example is a symbol leaning by 22.6 degrees with its corners off by three or four pixels."
  },
  {
   "property": "C78",
   "status": "proved",
   "theorems": [
    "C78_read",
    "C78_decoded"
   ],
   "note": "C78_read starts from candidates, C78_decoded from the prepared image. The condition that no candidate nearby is off by more than o is needed because of C74: in a simulation of the scan with nothing else in the picture it holds with o = m/13 up to about twelve degrees."
  },
  {
   "property": "C79",
   "status": "proved",
   "theorems": [
    "C79_pixel",
    "C79_image",
    "C79_mixed",
    "C79_decode"
   ],
   "note": "C79_pixel is about one pixel and its window, C79_image and C79_decode about whole images; C79_mixed is the case where each colour has at least one k-th of the window. Generalises C71 (values of at most 4 and at least 251). The example is a finder pattern with the light falling off to one side."
  },
  {
   "property": "C80",
   "status": "partial",
   "theorems": [
    "C80_recoloured_partial",
    "C80_located_partial",
    "C80_refuted",
    "C80_sampled_partial",
    "C80_format_partial"
   ],
   "note": "False: locations are the same (detection ignores colours), but the modules and with them level and mask are read in negative; the example page gives an error. Proved: the locations, the sampled modules of version 1 and the format that is read."
  },
  {
   "property": "C81",
   "status": "partial",
   "theorems": [
    "C81_refuted",
    "C81_format_partial"
   ],
   "note": "False: the format information is read backwards. Proved: what is read for each of the 32 formats, never the right one, and for seven of them an error for every symbol. That a drawing of mirrored modules is read like the mirrored modules is C67."
  },
  {
   "property": "C82",
   "status": "proved",
   "theorems": [
    "C82_found",
    "C82_white"
   ],
   "note": "Modules of fractional size as in C73, with sharper bounds and smaller modules because the pattern is upright; C59 has whole sizes. C82_white has nothing dark to the left of the pattern, C82_alone no other candidate close by. The example has modules of seven and a half pixels."
  },
  {
   "property": "C83",
   "status": "partial",
   "theorems": [
    "C83_refuted",
    "C83_partial"
   ],
   "note": "False: in version 40 with modules of 7.125 pixels and measured sizes of 7, the 170 modules between the centres seem to be 173 and the version comes out as 41. Proved: the version is right if (4 v + 10) / 5 + 4.1 is at most 1.999 m."
  },
  {
   "property": "C84",
   "status": "proved",
   "theorems": [
    "C84_sampled",
    "C84_text",
    "C84_read",
    "C84_decoded",
    "C84_picture"
   ],
   "note": "C84_sampled and C84_text start from a location, C84_read from candidates, C84_decoded from the prepared image with conditions on the candidates, C84_picture from a picture of the symbol. The example has modules of 16.2 pixels."
  },
  {
   "property": "C85",
   "status": "proved",
   "theorems": [
    "C85_found",
    "C85_located",
    "C85_only",
    "C85_among",
    "C85_one",
    "C85_all",
    "C85_framed",
    "C85_covers",
    "C85_margin_needed"
   ],
   "note": "Takes the place of the three white modules in C58, C62 and C63 (C85_covers: their pictures are among those here unless the symbol touches the border). C85_framed has black ink on white, one white module around the symbol and anything beyond. The example is a symbol in a black frame; C85_margin_needed is the same without the margin, where nothing is found."
  },
  {
   "property": "C86",
   "status": "proved",
   "theorems": [
    "C86_ink",
    "C86_paper",
    "C86_close",
    "C86_blank",
    "C86_drawn",
    "C86_apart",
    "C86_near",
    "C86_shown",
    "C86_text",
    "C86_left",
    "C86_lone",
    "C86_large"
   ],
   "note": "C86_ink, C86_paper and C86_blank say what becomes of single pixels, C86_shown what of the symbol, C86_text and C86_lone that it is read. Between 10 and 34 pixels it depends on the place of the symbol. The example has tones 60 and 200 and modules of two pixels, C86_large_example modules of 34 pixels."
  },
  {
   "property": "C87",
   "status": "proved",
   "theorems": [
    "C87_cross",
    "C87_diagonal",
    "C87_none",
    "C87_locations"
   ],
   "note": "C87_cross for candidates, C87_locations for locations, C87_diagonal for the third line, C87_none for pictures without crossings. The condition on the runs is that of C59: without it, slide() may join stretches of two colours. The examples are a finder pattern with modules of one pixel, and two rows like a finder pattern above nothing."
  },
  {
   "property": "C88",
   "status": "proved",
   "theorems": [
    "C88_columns",
    "C88_bars",
    "C88_stripes"
   ],
   "note": "C88_columns is for prepared pictures and complements C45_few_changes; C88_bars and C88_stripes are for the default decoder, before preparation. In the example every row looks like a finder pattern before and after preparation."
  },
  {
   "property": "C89",
   "status": "proved",
   "theorems": [
    "C89_page",
    "C89_candidates",
    "C89_read",
    "C89_painted"
   ],
   "note": "C89_page is for any number of finder patterns on a raster of modules, C89_read for one symbol in any of the four directions, C89_painted for the default decoder. decoy_free decides the condition on the modules for all module sizes at once (decoy_free_ok); C89_example is a symbol for which it holds, read at every module size, position and paper size. Symbols with decoys are not covered; they may still be read (C60, C85)."
  },
  {
   "property": "C90",
   "status": "proved",
   "theorems": [
    "C90_same",
    "C90_default",
    "C90_with_info",
    "C90_damaged",
    "C90_invariant"
   ],
   "note": "C90_same is for any decoder with the usual detection and extraction, C90_default and C90_with_info for the default decoders, C90_invariant compares two pictures, C90_damaged is for damaged symbols. The condition on decoys is on the modules as they are drawn, damage included, and in the direction they are drawn in: decoys may appear and disappear when a symbol is turned. The examples are a damaged symbol, upright and upside down, at every size and position, and two pictures of it."
  },
  {
   "property": "C91",
   "status": "proved",
   "theorems": [
    "C91_page",
    "C91_painted"
   ],
   "note": "C91_page is for any decoder with the usual detection, C91_painted for the default decoders and modules of five pixels or more. The example is the symbol of C89 without one, two or all three of its finder patterns, at every size and position."
  }
 ]
}
