{
 "C01": "",
 "C03": "False as stated: after chomp(3) on one byte, a refused chomp(8) makes chomp(5) fail. Proved for refused sizes outside 1..8 and for at most four bits left.",
 "C04": "False above 16 bits: 17..23 bits silently drop the first byte, 24 and more panic. Proved for all sizes 0..16.",
 "C08": "False: UTF-8 text without a byte 0xC3 is read as ISO 8859-1. Proved: exactly the texts that are ASCII or contain a byte 0xC3 round-trip.",
 "C10": "A stream cut inside the four bit mode indicator counts as ended (fewer than four bits left), as the standard allows.",
 "C12": "False: an odd alphanumeric segment whose last value is 45..63 panics. Proved: exactly those streams panic.",
 "C13": "False: group values an encoder never writes print too many digits. Proved: always digits, at least n, exactly n iff all groups are in range.",
 "C14": "False for division: 0/b gives 1/b. Sums, products and quotients of non-zero elements proved.",
 "C16": "False: damage whose error values xor to zero is always rejected (any two codewords changed by the same value). Proved: for damage that meets no zero quotient in the first solve, an exact criterion for repair.",
 "C17": "False: only the first syndrome is checked, and the solver makes that check succeed whenever the first syndrome of the received block is not zero. Proved: what acceptance does imply.",
 "C20": "False: e.g. at version 1-L damage to the codeword of x^1 or x^10 yields a different block, accepted silently. Proved: the exact criterion for every block structure, and the full statement for four of them, version 1-M among them.",
 "C22": "False: the last bit is never repaired (one wrong bit suffices), and three wrong bits with a vanishing locator coefficient can silently give another level and mask. Proved for 417 of the 575 patterns with any second copy, for the patterns touching the last bit when the second copy is fairly damaged at most, and the exact outcome of all 575 (428 right, 103 decided by the second copy, 44 misread).",
 "C24": "False: only the first syndrome is checked. Proved: the accepted bits vanish at the first root.",
 "C33": "False: a symbol whose payload has an odd alphanumeric segment with a last value of 45..63 panics. Proved: exactly those symbols panic, for every version.",
 "C35": "False for total_data: it counts the data codewords only, not the error correction codewords as documented. Version, level and number of changed bits proved.",
 "C37": "Repairable is given three ways: per block by what correct() does, by an explicit criterion over the field, and for at most one wrong codeword per block.",
 "C42": "False: images narrower or lower than one block, and block_mean_size below 3, panic. Proved: exactly which sizes are accepted.",
 "C43": "False as documented: the window has one block less on the right and at the bottom. Proved: the exact decision, in integers, over the window really used (up to 2^45 pixels, so that the quotient of doubles decides like the exact mean).",
 "C51": "False: detection reports a location for a sheared symbol whose samples leave the image, and get_pixel panics. Proved for version 1: extraction panics when a sample point is beyond the right or lower edge and succeeds when all are inside, up to 1/64 pixel. For versions above 1 with the search for the alignment pattern inside the image, the only cause of a panic is a module mapped beyond the right or lower edge.",
 "C52": "Also for finder centres with a common offset of up to 3/8 module, and for m = 1.",
 "C53": "Whenever all probed points are refused; and data is never delivered without a black and a non-black pixel.",
 "C54": "False: a 46 by 44 pixel image with a sheared symbol panics in sampling. Proved: once preparation accepts the image, only sampling and the alphanumeric overrun of C33 can panic; detection never does.",
 "C57": "Also shows that dots of 2 by 2 pixels vanish and that gray paper of at most 250 comes out black where no ink is near.",
 "C58": "The candidate's coordinates are given exactly. What is in the way is a candidate within seven modules of the point where the scan first meets the pattern, as the code compares it.",
 "C59": "False: a dark stripe with eleven white modules between it and the pattern hides it, because the first column of the pattern is then shorter than a tenth of the run before it and is dropped as noise. Proved when the row is white up to the pattern; C58 has the general condition.",
 "C60": "Stated in stages: location, only location, text among the results, text as the only result, and from the painted image on. The two conditions on the symbol cannot be dropped (C61).",
 "C61": "False: a version 3 symbol of a 53 byte URL has thirteen light modules in the third row in front of its upper right finder pattern and is not detected. Proved for symbols without such rows and without decoys.",
 "C62": "The corner reported as top left is the one of the symbol, not of the image, up to three eighths of a module. What is in the way is as in C58.",
 "C63": "That decoding does not panic is a hypothesis (C54): wrong combinations of finder patterns of different symbols are reported too and give errors, as in the example of two symbols side by side, where decoding gives four results.",
 "C64": "Images and coordinates up to 2^22. Everything acceptable means every place whose 17 modules looked at and middle have no wrong colour. The example is a symbol of version 2 whose rows become wider towards the bottom.",
 "C65": "Images and coordinates up to 2^22. It may still panic elsewhere (C51), and another pattern may be found first.",
 "C66": "False: the loop over the ring tests the left column twice and never the right one, and two corners and two border modules are not tested. Proved: the other 18 modules have their colours.",
 "C67": "Drawings as in C62. The example is a scratched symbol printed upside down.",
 "C68": "The example is a slanted symbol. A panic when a point is beyond the right or lower edge is C51.",
 "C69": "About extraction from a given location: what detection finds of symbols at other angles than multiples of ninety degrees is C73 and C74.",
 "C70": "False: plain gray paper is prepared to black and plain white paper to white, because of the limits 5 and 250 for the mean. Proved where the mean of the window is between these limits in both images.",
 "C71": "4 is the most that can be allowed: paper of value 250 without ink near comes out black (C57).",
 "C72": "False: marks and boxes are cut at the width of the image instead of the height, so in an image that is wider than high, a dark sample in the last row of pixels panics. Proved: nothing changes in images that are not wider than high, a panic is all that can change, and where it happens for version 1.",
 "C73": "Drawings as in C69. The second case, a candidate found earlier, is C74. C73_white has nothing dark to the left of the pattern instead of the condition on runs. The example is a pattern turned with slope 3/4.",
 "C74": "False: rows are scanned from the top, a row through the upper part of a turned pattern already has the proportions, its refinement stays off the centre, and the later rows are skipped because a candidate is near. Proved: refinement from the middle row stays within half a module, from 18 pixels per module.",
 "C75": "Complements C47, C49 and C55, which say what every returned location is like. The example has three of four candidates, in another order.",
 "C76": "False: along rows and columns the modules of a turned symbol seem larger, by a factor of 1/0.8 for slope 3/4, so the sides count too few modules; the exact centres of a version-1 symbol at that slope are not located at all. Proved: the version is right when sides times the excess stay below two modules, also for centres off by up to o pixels.",
 "C77": "Generalises C69, where all corners are off by the same vector. The example is a symbol leaning by 22.6 degrees with its corners off by three or four pixels.",
 "C78": "C78_read starts from candidates, C78_decoded from the prepared image. The condition that no candidate nearby is off by more than o is needed because of C74: in a simulation of the scan with nothing else in the picture it holds with o = m/13 up to about twelve degrees.",
 "C79": "C79_pixel is about one pixel and its window, C79_image and C79_decode about whole images; C79_mixed is the case where each colour has at least one k-th of the window. Generalises C71 (values of at most 4 and at least 251). The example is a finder pattern with the light falling off to one side.",
 "C80": "False: locations are the same (detection ignores colours), but the modules and with them level and mask are read in negative; the example page gives an error. Proved: the locations, the sampled modules of version 1 and the format that is read.",
 "C81": "False: the format information is read backwards. Proved: what is read for each of the 32 formats, never the right one, and for seven of them an error for every symbol. That a drawing of mirrored modules is read like the mirrored modules is C67.",
 "C82": "Modules of fractional size as in C73, with sharper bounds and smaller modules because the pattern is upright; C59 has whole sizes. C82_white has nothing dark to the left of the pattern, C82_alone no other candidate close by. The example has modules of seven and a half pixels.",
 "C83": "False: in version 40 with modules of 7.125 pixels and measured sizes of 7, the 170 modules between the centres seem to be 173 and the version comes out as 41. Proved: the version is right if (4 v + 10) / 5 + 4.1 is at most 1.999 m.",
 "C84": "C84_sampled and C84_text start from a location, C84_read from candidates, C84_decoded from the prepared image with conditions on the candidates, C84_picture from a picture of the symbol. The example has modules of 16.2 pixels.",
 "C85": "Takes the place of the three white modules in C58, C62 and C63 (C85_covers: their pictures are among those here unless the symbol touches the border). C85_framed has black ink on white, one white module around the symbol and anything beyond. The example is a symbol in a black frame; C85_margin_needed is the same without the margin, where nothing is found.",
 "C86": "C86_ink, C86_paper and C86_blank say what becomes of single pixels, C86_shown what of the symbol, C86_text and C86_lone that it is read. Between 10 and 34 pixels it depends on the place of the symbol. The example has tones 60 and 200 and modules of two pixels, C86_large_example modules of 34 pixels.",
 "C87": "C87_cross for candidates, C87_locations for locations, C87_diagonal for the third line, C87_none for pictures without crossings. The condition on the runs is that of C59: without it, slide() may join stretches of two colours. The examples are a finder pattern with modules of one pixel, and two rows like a finder pattern above nothing.",
 "C88": "C88_columns is for prepared pictures and complements C45_few_changes; C88_bars and C88_stripes are for the default decoder, before preparation. In the example every row looks like a finder pattern before and after preparation.",
 "C89": "C89_page is for any number of finder patterns on a raster of modules, C89_read for one symbol in any of the four directions, C89_painted for the default decoder. decoy_free decides the condition on the modules for all module sizes at once (decoy_free_ok); C89_example is a symbol for which it holds, read at every module size, position and paper size. Symbols with decoys are not covered; they may still be read (C60, C85).",
 "C90": "C90_same is for any decoder with the usual detection and extraction, C90_default and C90_with_info for the default decoders, C90_invariant compares two pictures, C90_damaged is for damaged symbols. The condition on decoys is on the modules as they are drawn, damage included, and in the direction they are drawn in: decoys may appear and disappear when a symbol is turned. The examples are a damaged symbol, upright and upside down, at every size and position, and two pictures of it.",
 "C91": "C91_page is for any decoder with the usual detection, C91_painted for the default decoders and modules of five pixels or more. The example is the symbol of C89 without one, two or all three of its finder patterns, at every size and position."
}
