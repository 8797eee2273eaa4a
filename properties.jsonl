{"id": "C01", "title": "Chomp reads consecutive bits", "statement": "On a Chomp built from any byte vector, any sequence of chomp(n) calls with n in 1..8 returns, as long as enough bits are left, exactly the next n bits (most significant first) of the concatenated bytes; as long as no call has failed, a call succeeds if and only if at least n bits are left.", "quantifier": "every byte vector, every finite sequence of requests, every request size 1..8", "why_tests_cant": "the state space is byte vectors times request histories; alignment of requests to byte borders is history dependent", "anchors": ["src/util/chomp.rs: Chomp::new, Chomp::chomp, Chomp::nibble"]}
{"id": "C02", "title": "Chomp never invents or reorders bits", "statement": "Whatever requests were made before, including refused ones (size 0, size above 8, too few bits left), every value Chomp returns is the run of bits directly after the last bit returned earlier.", "quantifier": "every byte vector and every finite history of chomp calls with arbitrary u8 sizes", "why_tests_cant": "histories mixing refused and granted requests are unbounded", "anchors": ["src/util/chomp.rs: Chomp::chomp"]}
{"id": "C03", "title": "A refused chomp leaves the remaining bits readable", "statement": "If chomp(n) returns None, a later request for bits that are still there is granted as if the refused call had not been made (the documentation's own example relies on this).", "quantifier": "every byte vector and every history ending in a refused request", "why_tests_cant": "the refusal updates the internal counter only in some byte alignments; the documented example passes", "anchors": ["src/util/chomp.rs: Chomp::chomp (bits_left update before peek)"]}
{"id": "C04", "title": "chomp_or_u16 reads up to 16 bits", "statement": "chomp_or_u16(n, err) with n in 1..16 returns the next n bits as one number, or err if fewer are left; with n above 16 it returns err, as documented.", "quantifier": "every byte vector, every history, every n in 0..255", "why_tests_cant": "the loop overwrites its accumulator, which only shows for n above 16", "anchors": ["src/util/chomp.rs: Chomp::chomp_or_u16"]}
{"id": "C05", "title": "Numeric segments round-trip", "statement": "For every version 1..40 and every digit string that fits the version's character count field, the bit stream an encoder writes for it decodes to that string.", "quantifier": "every digit string (any length the count field can express) and version", "why_tests_cant": "lengths mod 3 and group values are unbounded in combination", "anchors": ["src/decode/qr/data.rs: data, numeric"]}
{"id": "C06", "title": "Alphanumeric segments round-trip", "statement": "For every version 1..40 and every string over the 45 character alphabet that fits the count field, the encoded bit stream decodes to that string.", "quantifier": "every alphanumeric string and version", "why_tests_cant": "odd/even lengths times 45^n strings", "anchors": ["src/decode/qr/data.rs: alphanumeric, ALPHANUMERIC"]}
{"id": "C07", "title": "Byte segments without 0xC3 decode as ISO 8859-1", "statement": "A byte segment that holds no byte 0xC3 decodes to the string whose characters are the bytes as ISO 8859-1, so any ISO 8859-1 text without that byte round-trips.", "quantifier": "every byte string up to the count field's limit, every version", "why_tests_cant": "256^n inputs", "anchors": ["src/decode/qr/data.rs: eight_bit"]}
{"id": "C08", "title": "UTF-8 text in byte segments round-trips", "statement": "Any text encoded as UTF-8 in a byte segment decodes to that text.", "quantifier": "every Unicode string up to the count field's limit", "why_tests_cant": "the choice of charset is a heuristic on one byte value; tests use strings on one side of it", "anchors": ["src/decode/qr/data.rs: eight_bit (may_be_utf8)"]}
{"id": "C09", "title": "Mixed segment streams decode to the concatenation", "statement": "A stream of any number of numeric, alphanumeric and byte segments in any order, ended by a terminator followed by arbitrary padding, or by fewer than four left over bits, decodes to the concatenation of the segments' texts.", "quantifier": "every list of segments, every version, every padding", "why_tests_cant": "segment boundaries fall on every bit offset", "anchors": ["src/decode/qr/data.rs: data"]}
{"id": "C10", "title": "Truncated streams are rejected", "statement": "If a segment announces more characters than the remaining bits can hold, decoding fails with an error; it never returns a shortened text.", "quantifier": "every prefix of every encoded stream that ends inside a segment", "why_tests_cant": "cut points range over all bit positions", "anchors": ["src/decode/qr/data.rs: numeric, alphanumeric, eight_bit"]}
{"id": "C11", "title": "Unsupported modes are reported", "statement": "When the next mode indicator is not numeric, alphanumeric, byte or terminator, decoding fails with an error that names that mode, whatever came before.", "quantifier": "every list of leading segments, every unsupported mode, every continuation", "why_tests_cant": "any position in the stream", "anchors": ["src/decode/qr/data.rs: data"]}
{"id": "C12", "title": "Payload decoding never panics", "statement": "Decoding the payload of any codeword sequence returns a text or an error and never aborts the program.", "quantifier": "every byte sequence and every version number", "why_tests_cant": "panics hide behind rare field values", "anchors": ["src/decode/qr/data.rs: alphanumeric (ALPHANUMERIC[chars])"]}
{"id": "C13", "title": "A numeric segment of n characters yields n digits", "statement": "If a numeric segment announces n characters and decodes successfully, the text has exactly n characters, all decimal digits.", "quantifier": "every numeric segment bit pattern", "why_tests_cant": "groups above 999 are never produced by encoders under test", "anchors": ["src/decode/qr/data.rs: numeric"]}
{"id": "C14", "title": "Correction arithmetic is GF(256)", "statement": "Addition, multiplication and division used by the error correction are those of GF(2)[x]/(x^8+x^4+x^3+x^2+1): sums and products agree with polynomial arithmetic, and a quotient times its divisor gives back the dividend for every non-zero divisor.", "quantifier": "all pairs of bytes", "why_tests_cant": "unit tests sample a handful of pairs, none with a zero dividend", "anchors": ["src/decode/qr/galois.rs: GF8, EXP8, LOG8"]}
{"id": "C15", "title": "Undamaged blocks pass unchanged", "statement": "A block that is a valid Reed-Solomon codeword comes back unchanged with an error count of 0.", "quantifier": "every block structure of the table and every codeword", "why_tests_cant": "256^k codewords", "anchors": ["src/decode/qr/correct.rs: correct_with_error_count, calculate_syndromes"]}
{"id": "C16", "title": "Blocks within the correction capacity are restored", "statement": "A block that differs from a valid codeword in at most ec_cap codewords is restored to that codeword.", "quantifier": "every block structure, codeword and error pattern of weight at most ec_cap", "why_tests_cant": "error patterns are astronomically many; failures need coincidences (a zero in an intermediate row)", "anchors": ["src/decode/qr/correct.rs: find_locs, calculate_distances, solve", "src/decode/qr/galois.rs: Div for GF8"]}
{"id": "C17", "title": "An accepted block is a valid codeword", "statement": "If error correction accepts a block, the block it returns is a valid codeword (all the syndromes it uses are zero).", "quantifier": "every received block", "why_tests_cant": "only one of the syndromes is checked at the end", "anchors": ["src/decode/qr/correct.rs: correct_with_error_count lines 45-49"]}
{"id": "C18", "title": "The reported error count is the number of bits changed", "statement": "When error correction accepts a block, the returned block has the same length, and the reported error count is the number of bits in which it differs from the received block.", "quantifier": "every received block of the right length", "why_tests_cant": "holds for every combination of positions and magnitudes", "anchors": ["src/decode/qr/correct.rs: correct_with_error_count"]}
{"id": "C19", "title": "Error correction never panics", "statement": "For every block of the length its block structure demands, error correction returns a block or an error and never aborts, however damaged the block is.", "quantifier": "every block structure of the table and every received block", "why_tests_cant": "index bounds depend on how many roots the locator polynomial has", "anchors": ["src/decode/qr/correct.rs: find_locs, calculate_distances, solve"]}
{"id": "C20", "title": "A single damaged codeword is repaired", "statement": "If exactly one codeword of a block is damaged, in any position and by any value, the block is restored.", "quantifier": "every block structure, codeword, position and error value", "why_tests_cant": "depends on spurious roots of the locator polynomial, a number theoretic coincidence per position", "anchors": ["src/decode/qr/correct.rs: find_locs, calculate_distances, solve"]}
{"id": "C21", "title": "Intact format information is read correctly", "statement": "From a symbol of any version whose first format copy holds the standard's code word for an error correction level and a mask, exactly that level and that mask are read.", "quantifier": "all 32 format values, all versions, all other modules arbitrary", "why_tests_cant": "all other modules are free", "anchors": ["src/decode/qr/format.rs: format, format1, error_correction, mask"]}
{"id": "C22", "title": "Up to three wrong format bits are repaired", "statement": "If at most three of the fifteen bits of the first format copy are wrong, the right level and mask are read.", "quantifier": "all 32 format values, all error patterns of weight at most 3, any second copy", "why_tests_cant": "575 patterns times 32 values times all second copies", "anchors": ["src/decode/qr/format.rs: correct"]}
{"id": "C23", "title": "The second format copy is the fallback", "statement": "If the first format copy is found to be beyond repair, the outcome is exactly the outcome of reading the second copy, and an error is returned only if both are beyond repair.", "quantifier": "every pair of format copies", "why_tests_cant": "2^30 pairs of copies", "anchors": ["src/decode/qr/format.rs: format, format2"]}
{"id": "C24", "title": "Accepted format information is a BCH code word", "statement": "If format information is accepted, the fifteen corrected bits are one of the 32 code words of the standard.", "quantifier": "every 15 bit pattern", "why_tests_cant": "only one syndrome is checked", "anchors": ["src/decode/qr/format.rs: correct (s1 == 0)"]}
{"id": "C25", "title": "Mask patterns are those of the standard", "statement": "For each of the eight mask numbers the module value read is the pixel's value xor the standard's mask condition at its row and column, so masking twice is the identity.", "quantifier": "all masks, all coordinates", "why_tests_cant": "coordinates are unbounded", "anchors": ["src/decode/qr/format.rs: mask, qrmask"]}
{"id": "C26", "title": "Data modules are exactly the non-function modules", "statement": "For every version 1..40 and every coordinate of the symbol, a module is used as data exactly when the standard assigns it to no finder, separator, timing, alignment, format or version area.", "quantifier": "all 40 versions, all coordinates", "why_tests_cant": "about half a million modules, and the alignment positions are given by start and step instead of the standard's table", "anchors": ["src/decode/qr/blocks.rs: is_data, is_alignment_coord, alignment_location"]}
{"id": "C27", "title": "Codewords are read in the standard's order", "statement": "For every version, mask and level, the codeword stream read from a symbol is the sequence of data modules in the standard's zigzag order, each read exactly once, most significant bit first, with only the remainder bits dropped.", "quantifier": "all versions, levels, masks and all module contents", "why_tests_cant": "module contents are free", "anchors": ["src/decode/qr/blocks.rs: blocks, y_range, Codewords::add_bit"]}
{"id": "C28", "title": "De-interleaving inverts the standard's interleaving", "statement": "For every version and level, the blocks obtained from the interleaving of any blocks of the right shape are those blocks.", "quantifier": "all versions, levels and block contents", "why_tests_cant": "content free, shapes with two groups need a skip rule", "anchors": ["src/decode/qr/blocks.rs: Blocks::push, Blocks::inc_count"]}
{"id": "C29", "title": "The block table is the standard's", "statement": "For every version and level the number of blocks, their total and data lengths are those of the standard, they fill the symbol's capacity exactly, and the correction capacity is within what the error correction codewords allow.", "quantifier": "all 160 version/level pairs", "why_tests_cant": "tests decode a few versions only", "anchors": ["src/decode/qr/mod.rs: block_info"]}
{"id": "C30", "title": "Undamaged symbols decode to their payload", "statement": "For every version, level, mask and every list of segments that fits, any module matrix that carries the standard's encoding of it in its data and format modules decodes to the payload text.", "quantifier": "all versions, levels, masks, payloads, and all contents of the function modules and remainder bits", "why_tests_cant": "the whole input space of the decoder", "anchors": ["src/decode/qr/decoder.rs: QRDecoder::decode", "src/decode/qr/*"]}
{"id": "C31", "title": "Only data and format modules matter", "statement": "Two module matrices of the same version that agree on the format areas and data modules give the same result, so finder, timing, alignment and version areas may be damaged at will.", "quantifier": "all pairs of matrices of all versions", "why_tests_cant": "pairs of 2^n matrices", "anchors": ["src/decode/qr/decoder.rs", "src/decode/qr/blocks.rs: is_data", "src/decode/qr/format.rs"]}
{"id": "C32", "title": "Unknown versions are errors", "statement": "A symbol whose version is not in 1..40 and whose data fills its square is rejected with an error, never a panic and never a text.", "quantifier": "all version numbers outside 1..40 and all contents", "why_tests_cant": "unbounded version numbers", "anchors": ["src/decode/qr/mod.rs: block_info", "src/decode/qr/blocks.rs: alignment_location"]}
{"id": "C33", "title": "Decoding extracted data never panics", "statement": "For every QRData whose data has side*side entries, decode returns a text or an error and never aborts.", "quantifier": "every version and every module content", "why_tests_cant": "panics hide in corner cases of arithmetic on corrupted input", "anchors": ["src/decode/qr/decoder.rs: QRDecoder::decode"]}
{"id": "C34", "title": "The two QR decoders agree", "statement": "QRDecoderWithInfo fails exactly when QRDecoder fails, with the same error, and otherwise returns the same text.", "quantifier": "every input, including errors passed in", "why_tests_cant": "two copies of the loop could drift apart on some input", "anchors": ["src/decode/qr/decoder.rs"]}
{"id": "C35", "title": "QRInfo reports version, level, size and bit errors", "statement": "When QRDecoderWithInfo succeeds, the reported version is the symbol's, the level is the one in the format information, total_data is the number of bits in data and error correction codewords together, as documented, and errors is the total number of bits changed by error correction.", "quantifier": "every successfully decoded input", "why_tests_cant": "tests pin single values only", "anchors": ["src/decode/qr/decoder.rs: QRDecoderWithInfo::decode", "src/util/qr.rs: QRInfo"]}
{"id": "C36", "title": "Errors from extraction are passed on", "statement": "If the extraction result is an error, both decoders return that very error.", "quantifier": "every error", "why_tests_cant": "the trait contract says as-is, for all errors", "anchors": ["src/decode/qr/decoder.rs", "src/decode/mod.rs"]}
{"id": "C37", "title": "Damaged symbols decode when each block is repairable", "statement": "If every block of the received symbol differs from the encoded one only in ways the error correction repairs, and the format information is readable, the payload text is returned and errors is the total number of wrong bits.", "quantifier": "all versions, levels, masks, payloads and damage patterns within capacity", "why_tests_cant": "damage patterns are unbounded combinations over blocks", "anchors": ["src/decode/qr/decoder.rs", "src/decode/qr/correct.rs"]}
{"id": "C38", "title": "Builder: last component set wins, missing ones panic", "statement": "After any sequence of builder calls, build() yields a decoder made of the last component given for each role, and panics exactly when a role was never given a component; the default builders never panic.", "quantifier": "every sequence of builder calls", "why_tests_cant": "histories of calls", "anchors": ["src/decoder.rs: DecoderBuilder"]}
{"id": "C39", "title": "One result per detected location, in order", "statement": "Decoder::decode returns exactly one result per location reported by the detector, in that order; each depends only on the prepared image and that location, so a failing code does not affect the others; no location gives an empty vector.", "quantifier": "every component implementation, every image", "why_tests_cant": "components are arbitrary trait objects", "anchors": ["src/decoder.rs: Decoder::decode"]}
{"id": "C40", "title": "Default decoders agree on text", "statement": "On every image the default decoder and the default decoder with info return the same number of results, with equal texts or equal errors at each position, and panic on the same images.", "quantifier": "every image", "why_tests_cant": "image space", "anchors": ["src/decoder.rs: default_decoder, default_decoder_with_info"]}
{"id": "C41", "title": "Preparation gives a black/white image of the same size", "statement": "For every grayscale image and every block size for which preparation completes, the prepared image has the same dimensions and every pixel is 0 or 255.", "quantifier": "every image, every parameter pair", "why_tests_cant": "image space", "anchors": ["src/prepare/blockedmean.rs: prepare, to_threshold"]}
{"id": "C42", "title": "Preparation accepts every image", "statement": "BlockedMean prepares any image, with any positive block sizes, without panicking.", "quantifier": "every image size and every pair of parameters", "why_tests_cant": "tests use ordinary sizes; the failing ones are tiny or degenerate", "anchors": ["src/prepare/blockedmean.rs: range, to_block_mean_map"]}
{"id": "C43", "title": "The threshold is the mean of the surrounding block of blocks", "statement": "A pixel is white exactly when its value exceeds the mean of the block of blocks (block_mean_size blocks wide, centred at its block, cut at the border), except that means above 250 give white and means below 5 give black.", "quantifier": "every image and parameter pair, every pixel", "why_tests_cant": "borders and partial blocks are position dependent", "anchors": ["src/prepare/blockedmean.rs: to_block_mean_map, to_threshold"]}
{"id": "C44", "title": "Preparation is local", "statement": "A prepared pixel depends only on its own value and the pixels within the block of blocks around it: changes elsewhere in the image do not alter it.", "quantifier": "every pair of images that agree in the window, every pixel", "why_tests_cant": "pairs of images", "anchors": ["src/prepare/blockedmean.rs"]}
{"id": "C45", "title": "Blank images contain no code", "statement": "An image of one uniform gray value, of any size that can be prepared, decodes to an empty result vector.", "quantifier": "every gray value and every size", "why_tests_cant": "sizes are unbounded, and the finder test uses rounded floating point numbers", "anchors": ["src/prepare/blockedmean.rs", "src/detect/linescan.rs: detect, looks_like_finder"]}
{"id": "C46", "title": "Detection never panics", "statement": "For every prepared image (of dimensions below 2^24) detection returns without panicking: every pixel it looks at lies inside the image and no counter overflows.", "quantifier": "every image content and size", "why_tests_cant": "pixel coordinates come out of rounded floating point arithmetic", "anchors": ["src/detect/linescan.rs"]}
{"id": "C47", "title": "Detected locations are well formed", "statement": "Every location reported has version at least 1 and a positive finite module size, and its three corners are three different finder candidates.", "quantifier": "every image", "why_tests_cant": "image space", "anchors": ["src/detect/linescan.rs: detect, find_qr, find_qr_internal"]}
{"id": "C48", "title": "Finder runs: perfect ratios accepted, gross deviations rejected", "statement": "Five runs of lengths m, m, 3m, m, m look like a finder for every module size m at least 1, in any context of earlier runs; a set of runs in which one deviates by more than two thirds (and a rounding margin) of the mean module is rejected.", "quantifier": "every module size up to 2^28", "why_tests_cant": "floating point rounding for every size", "anchors": ["src/detect/linescan.rs: QRFinderPattern::looks_like_finder, est_mod_size"]}
{"id": "C49", "title": "Orientation is normalised", "statement": "In every reported location the top left corner is the one at the right angle, and the turn from top right to bottom left has the orientation of an unmirrored code.", "quantifier": "every candidate triple", "why_tests_cant": "floating point for every triple", "anchors": ["src/detect/linescan.rs: find_qr_internal"]}
{"id": "C50", "title": "Extraction yields side*side image pixels", "statement": "When extraction succeeds, the data has exactly side*side entries, side = 17 + 4*version, the version is the location's, and every entry is the value of a pixel of the image.", "quantifier": "every image and location", "why_tests_cant": "image and location space", "anchors": ["src/extract/qr/mod.rs: QRExtractor::extract"]}
{"id": "C51", "title": "Extraction never panics", "statement": "For every image and every location, extraction returns data or an error and never panics.", "quantifier": "every image, every location", "why_tests_cant": "sample points can leave the image only for particular geometries", "anchors": ["src/extract/qr/mod.rs: extract (get_pixel)"]}
{"id": "C52", "title": "Axis-aligned symbols are sampled exactly", "statement": "If a version 1 symbol is drawn axis-aligned with m by m pixels per module anywhere in an image and the location gives its exact finder centres, extraction returns exactly the module matrix, for every m at least 2.", "quantifier": "all matrices, offsets and module sizes up to 2^20", "why_tests_cant": "all module sizes and offsets, with floating point sampling", "anchors": ["src/extract/qr/mod.rs"]}
{"id": "C53", "title": "No alignment pattern, no data", "statement": "For versions above 1, if no alignment pattern is recognised at any of the probed positions, extraction fails with an error.", "quantifier": "every image and location", "why_tests_cant": "image space", "anchors": ["src/extract/qr/mod.rs: determine_perspective"]}
{"id": "C54", "title": "Decoding an image never panics", "statement": "Decoder::decode of the default decoder returns a vector of results for every image, however small or damaged.", "quantifier": "every image", "why_tests_cant": "image space; crashing images are rare or tiny", "anchors": ["src/decoder.rs", "src/prepare/blockedmean.rs", "src/extract/qr/mod.rs", "src/decode/qr/data.rs"]}
{"id": "C55", "title": "The version fits the measured size", "statement": "In every reported location the distance from the top left corner to one of the other corners, measured in modules of the reported size, differs by at most two modules (and a rounding margin) from the 4*version + 10 modules between the finder centres of a symbol of the reported version.", "quantifier": "every image", "why_tests_cant": "floating point division and rounding for every pair of candidates", "anchors": ["src/detect/linescan.rs: find_qr_internal"]}
{"id": "C56", "title": "Drawn symbols of every version are sampled exactly and decode", "statement": "If a symbol of version 2 to 40 with its bottom right alignment pattern is drawn axis-aligned with m by m pixels per module anywhere in an image, and the location gives the finder centres up to a common offset of at most three eighths of a module, extraction returns exactly the module matrix; so for every version and level the stored text is decoded from the image and the location.", "quantifier": "all matrices with an alignment pattern, offsets, module sizes, versions, levels, masks, texts", "why_tests_cant": "40 versions, all module sizes and offsets, with floating point sampling and perspective correction", "anchors": ["src/extract/qr/mod.rs", "src/decode/qr/decoder.rs"]}
{"id": "C57", "title": "Clean drawings pass preparation unchanged", "statement": "In a black and white image a pixel keeps its colour in preparation exactly when at least one in 51 pixels of its window has that colour; so a symbol drawn with at least five pixels per module and ten white pixels around it is not changed at all. For images of two tones the outcome is given by the numbers of dark and light pixels in the window.", "quantifier": "all black and white images, all two tone images, all pixels, all symbols, module sizes of at least 5 and offsets", "why_tests_cant": "every arrangement of pixels in a window of up to 30 by 30 pixels", "anchors": ["src/prepare/blockedmean.rs"]}
{"id": "C58", "title": "A drawn finder pattern is located exactly", "statement": "If a finder pattern is drawn with m by m pixels per module (m at least 2) with light modules around it, and no run of pixels in its third row that ends at the pattern or before it is longer than ten modules, then the candidates of detection contain one with module size exactly m at its centre (half a pixel to the right, at most half a pixel up), or another candidate is closer than seven modules to where the scan meets the pattern.", "quantifier": "all images up to 2^26 pixels wide and high, all positions and module sizes", "why_tests_cant": "image space; every position of the pattern and everything else in the picture", "anchors": ["src/detect/linescan.rs: detect, scan, refine, slide"]}
{"id": "C59", "title": "Ink elsewhere does not hide a finder pattern", "statement": "A finder pattern drawn with its light surroundings is found (or another candidate is in its place) whatever else is in the picture.", "quantifier": "all images with a drawn finder pattern", "why_tests_cant": "the hiding ink may be anywhere in the row", "anchors": ["src/detect/linescan.rs: slide"]}
{"id": "C60", "title": "A clean drawing of a symbol is decoded end to end", "statement": "If a symbol that encodes a text (any version, level, mask and segments) is painted black on white with at least five pixels per module and ten white pixels around, its third row has no eleven modules alike in front of the upper right finder pattern, and nothing else in it is taken for a finder pattern close to one of the three, then the default decoder delivers the text; and exactly this one result if there are just three candidates.", "quantifier": "all texts, versions, levels, masks, module sizes and offsets", "why_tests_cant": "the whole pipeline with floating point, for every content", "anchors": ["src/decoder.rs", "src/prepare/blockedmean.rs", "src/detect/linescan.rs", "src/extract/qr/mod.rs", "src/decode/qr/decoder.rs"]}
{"id": "C61", "title": "Every correct symbol on white paper is detected", "statement": "A correct symbol drawn alone on white paper is among the locations of detection, whatever its text.", "quantifier": "all texts, versions, levels and masks", "why_tests_cant": "which texts give the fatal row depends on the error correction codewords", "anchors": ["src/detect/linescan.rs"]}
{"id": "C62", "title": "Turned symbols are decoded", "statement": "A symbol turned by any multiple of ninety degrees and drawn with m by m pixels per module (m at least 2) and a light module around it in an image is located with its own top left corner and its version, sampled exactly and decoded to its text, unless something close to one of its finder patterns is taken for a finder pattern, or a run of more than ten modules in a row through a finder pattern hides it; and this is the only result if there are just three candidates.", "quantifier": "all texts, versions, levels, masks, module sizes, positions and the four directions", "why_tests_cant": "the whole pipeline with floating point, for every content and direction", "anchors": ["src/detect/linescan.rs", "src/extract/qr/mod.rs", "src/decode/qr/decoder.rs", "src/decoder.rs"]}
{"id": "C63", "title": "All symbols of a page are decoded", "statement": "If several symbols, each turned in any of the four directions, are drawn in one image under the conditions of the previous property and decoding does not panic, the texts of all of them are among the results; in particular the default decoder finds them all on a black and white page of at least five pixels per module with a margin of ten pixels.", "quantifier": "all numbers of symbols, texts, versions, levels, masks, positions and directions", "why_tests_cant": "the number of arrangements of several symbols", "anchors": ["src/detect/linescan.rs", "src/extract/qr/mod.rs", "src/decode/qr/decoder.rs", "src/decoder.rs", "src/prepare/blockedmean.rs"]}
{"id": "C64", "title": "The modules of a distorted symbol are read where the four patterns put them", "statement": "When extraction of a symbol of version 2 or above succeeds, every module has been read from the pixel that holds its image (up to a 64th of a pixel) under the one map, linear along rows and columns, that takes the centres of the three finder patterns to the corners of the location and the centre of the alignment pattern to the centre measured in the image; the measured centre lies half way between the light pixels around a black pixel at most one and a half modules off the expected place, where the pattern was accepted.  Conversely, if a pattern is shown at one of the places tried, everything acceptable leads to the same centre and all modules are clearly drawn under that map, then exactly the modules are delivered, and the text.", "quantifier": "all images, locations, versions above 1, distortions and texts", "why_tests_cant": "the map depends continuously on eight coordinates, and is computed incrementally with rounding", "anchors": ["src/extract/qr/mod.rs: extract, determine_perspective, is_alignment"]}
{"id": "C65", "title": "An alignment pattern close to its place is found", "statement": "If all 25 modules of the alignment pattern are clearly visible at one of the places and sizes tried, extraction does not report a missing alignment pattern; in particular not when a pattern of the right size is drawn less than thirteen eighths of a module away from its place in both directions.", "quantifier": "all images, locations, module sizes and displacements", "why_tests_cant": "the search has 294 steps with rounded coordinates", "anchors": ["src/extract/qr/mod.rs: determine_perspective, is_alignment"]}
{"id": "C66", "title": "An accepted alignment pattern is complete", "statement": "When extraction of a symbol of version 2 or above succeeds, there is a place among those tried where all 25 modules of an alignment pattern have their colours.", "quantifier": "all images and locations", "why_tests_cant": "a missing comparison shows only in images made for it", "anchors": ["src/extract/qr/mod.rs: is_alignment"]}
{"id": "C67", "title": "A drawing is read exactly like its modules, whatever they are", "statement": "If any matrix of modules with its function patterns is drawn in one of the four directions, with m by m pixels per module and a light module around it, nothing else is taken for a finder pattern close to one of the three and no long run hides one, then the outcome of decoding those modules, a text or an error, is among the results of the whole decoder; it is the only result, or the only panic, if there are just three candidates.  So a printed symbol with damage that error correction can repair is read, with the number of repaired errors reported.", "quantifier": "all module matrices, versions, module sizes, positions, directions, preparations and last stages of the decoder; all repairable damage", "why_tests_cant": "damage may be anywhere in the modules, combined with every content, size and direction", "anchors": ["src/decoder.rs", "src/detect/linescan.rs", "src/extract/qr/mod.rs", "src/decode/qr/decoder.rs"]}
{"id": "C68", "title": "The modules of a symbol of version 1 are read where the three finder patterns put them", "statement": "When extraction of a symbol of version 1 succeeds, every module has been read from the pixel that holds its image (up to a 64th of a pixel) under the affine map that takes the centres of the three finder patterns to the corners of the location; and if all modules are clearly drawn under that map, exactly the modules are delivered, and the text.", "quantifier": "all images, locations with coordinates up to 2^23, shears, angles and texts", "why_tests_cant": "the map depends continuously on six coordinates, and is computed incrementally with rounding", "anchors": ["src/extract/qr/mod.rs: extract, determine_perspective"]}
{"id": "C69", "title": "Symbols at any angle are sampled exactly", "statement": "If a symbol is drawn at any angle, every pixel with the colour of the module its middle belongs to, and a location gives the centres of its finder patterns up to a common error of at most o pixels per coordinate, then extraction delivers exactly the modules, and decoding the text: for version 1 if modules are at least 3/2 + 3 o pixels wide, for the versions above, with their bottom right alignment pattern, if they are at least 11 + 10 o pixels wide.", "quantifier": "all angles, positions, module sizes (not only whole pixels), versions, matrices and texts; images up to 2^22 pixels wide and high", "why_tests_cant": "angles and module sizes are continuous, and the measured centre of a turned alignment pattern depends on how the squares meet the pixels", "anchors": ["src/extract/qr/mod.rs", "src/decode/qr/decoder.rs"]}
{"id": "C70", "title": "Brightness and contrast do not matter", "statement": "If the values of two images are related by p' = (a p + b) / k with positive a and k, they are prepared to the same black and white image.", "quantifier": "all images, block sizes, brightness and contrast changes", "why_tests_cant": "the comparison with the mean is done in floating point, with special cases for very dark and very light windows", "anchors": ["src/prepare/blockedmean.rs"]}
{"id": "C71", "title": "A little noise does not matter", "statement": "If every value of a page with a symbol (five pixels or more per module, ten white pixels around) is changed by at most 4, preparation gives the clean page, and the default decoders the same results as for the clean page; a pixel of any noisy black and white image keeps its colour if five in 251 pixels of its window have that colour.", "quantifier": "all noise of at most 4, images, symbols, module sizes and positions", "why_tests_cant": "there are 9 possible values for every pixel", "anchors": ["src/prepare/blockedmean.rs", "src/decoder.rs"]}
{"id": "C72", "title": "Debug pictures do not change results", "statement": "With the feature `debug-images`, which draws pictures of the candidates, of the alignment pattern and of the samples for the developer, a decoder gives the same results as without it.", "quantifier": "all preparations, images and decoders of modules", "why_tests_cant": "the drawing loops compute their bounds from floating point positions; the tests run without the feature, and on pictures with a margin", "anchors": ["src/detect/linescan.rs: detect", "src/extract/qr/mod.rs"]}
{"id": "C73", "title": "Finder patterns are found at any angle", "statement": "If a finder pattern with its light ring is drawn at any angle, every pixel with the colour of the module its middle belongs to, with modules of at least 18 pixels, and in the row of pixels nearest to its centre no run of one colour up to the pattern is shorter than a tenth of the run before it, then detection has a candidate for it: one within 23/5 pixels of its centre across and 18/5 down, with the module size measured along rows and columns; or else one found earlier, at a distance below seven modules and five pixels, for which the code passes over the rest.", "quantifier": "all images up to 2^26 pixels wide and high, angles, positions, module sizes from 18 pixels", "why_tests_cant": "angles and positions are continuous; the position is refined in floating point along a column, a row and a diagonal that cross the pattern aslant", "anchors": ["src/detect/linescan.rs: detect, refine_vertical, refine_horizontal, refine_diagonal, refine"]}
{"id": "C74", "title": "The centre of a turned finder pattern is found to within half a module", "statement": "In an image with nothing but a finder pattern at some angle, with modules of at least five pixels, detection has a candidate within half a module of its centre.", "quantifier": "all angles, positions and module sizes", "why_tests_cant": "which row of pixels triggers the search first depends on the angle and on how the pattern meets the pixels", "anchors": ["src/detect/linescan.rs: detect, refine"]}
{"id": "C75", "title": "Three candidates like the corners of a symbol are located", "statement": "If three candidates form a corner of nearly ninety degrees with sides of nearly the same length, their module sizes are nearly the same, and the sides are within 1.999 modules of the length for version v whichever of the sizes is used, then location returns a symbol with these corners in the right roles and version v, whatever other candidates there are and in whatever order they were found.", "quantifier": "all lists of candidates, positions up to 2^31, versions", "why_tests_cant": "the search runs through all ordered triples with floating-point distances, quotients and a cross product", "anchors": ["src/detect/linescan.rs: detect, find_qr, find_qr_internal, diff, dist"]}
{"id": "C76", "title": "A turned symbol gets its version", "statement": "If the three candidates are exactly at the centres of the finder patterns of a symbol of version v turned by any angle, with the module size measured along rows and columns, then location returns a symbol of version v.", "quantifier": "all angles, module sizes from 18 pixels, versions 1 to 40", "why_tests_cant": "tests have upright symbols or fixed angles; the module size is overestimated by up to 41 per cent in between", "anchors": ["src/detect/linescan.rs: find_qr_internal"]}
{"id": "C77", "title": "Symbols at any angle are sampled exactly from rough corners", "statement": "If a symbol is drawn at any angle and each of the three corners of its location is off by at most o pixels, each in its own way, then extraction delivers exactly its modules and decoding its text, for version 1 with modules of at least 3/2 + 11 o pixels, and with an alignment pattern in the lower right corner of at least 11 + 21 o pixels.", "quantifier": "all images up to 2^22 pixels wide and high, angles, versions, errors of the corners", "why_tests_cant": "errors of the corners are stretched by the extrapolation to the far corner, which no test measures", "anchors": ["src/extract/qr/mod.rs: extract, determine_perspective, is_alignment"]}
{"id": "C78", "title": "Turned symbols are read", "statement": "If a symbol is drawn at an angle not too large for its version, its finder patterns are visible, and no candidate near one of them is off by more than o pixels, with modules as large as for C77, then its text is among the results of decoding the image.", "quantifier": "all images up to 2^22 pixels wide and high, angles, versions, texts, other content of the image", "why_tests_cant": "combines the scan, the refinement, the search for triples, the sampling and the decoding over continuous angles and positions", "anchors": ["src/detect/linescan.rs: detect", "src/extract/qr/mod.rs: extract", "src/decode/qr/decoder.rs: QRDecoder::decode", "src/decoder.rs: Decoder::decode"]}
{"id": "C79", "title": "Uneven light does not matter where ink and paper are mixed", "statement": "If an image shows a black and white drawing under uneven light, and in the window of every pixel the tones of paper and of ink vary little compared with the contrast between them (light tones times the number of light pixels less than the contrast times the number of dark ones, and the other way round), then the image is prepared to the drawing and decoded like it.", "quantifier": "all images, drawings and distributions of light", "why_tests_cant": "tests have a few photos; the threshold depends on the sums over all windows", "anchors": ["src/prepare/blockedmean.rs", "src/decoder.rs"]}
{"id": "C80", "title": "Light symbols on dark ground are read", "statement": "What is read from a black and white image is read from its negative as well (ISO/IEC 18004 allows symbols with reversed reflectance).", "quantifier": "all black and white images, all texts", "why_tests_cant": "no test has a negative; which pixels are looked at depends on all of the picture", "anchors": ["src/detect/linescan.rs: detect, refine", "src/extract/qr/mod.rs: extract", "src/decode/qr/format.rs"]}
{"id": "C81", "title": "Symbols in a mirror are read", "statement": "A symbol whose modules are mirrored at the diagonal is decoded to its text (ISO/IEC 18004 allows mirror images).", "quantifier": "all versions, levels, masks and texts", "why_tests_cant": "no test has a mirrored symbol; there are 32 formats and the second copy is consulted for some of them", "anchors": ["src/decode/qr/format.rs: format, format1, format2"]}
{"id": "C82", "title": "Upright finder patterns with modules of any size are found near their centres", "statement": "If a finder pattern with its light ring is drawn upright with modules of any size from 7 pixels, not necessarily a whole number, at any position, and the uppermost row of pixels of its inner square has no run too short to be seen up to the pattern, then a candidate is found at most one pixel right of its centre, at most 2.17 pixels above or 1.51 below it, and with a module size that is right to a fifth of a pixel, unless a candidate close by was found before.", "quantifier": "all images up to 2^26 pixels wide and high, positions and module sizes, other content of the image", "why_tests_cant": "tests have whole module sizes; which pixels a module gets depends on the fractional parts of position and size", "anchors": ["src/detect/linescan.rs: detect, refine"]}
{"id": "C83", "title": "An upright symbol gets its version", "statement": "If the three candidates are where C82 finds them for a symbol of version v drawn upright, with modules of any size from 7 pixels, then location returns a symbol of version v.", "quantifier": "all positions, module sizes from 7 pixels, versions 1 to 40", "why_tests_cant": "a fifth of a pixel in the module size counts once for every module of the side of the symbol", "anchors": ["src/detect/linescan.rs: find_qr_internal"]}
{"id": "C84", "title": "Upright symbols with modules of any size are read", "statement": "If a symbol is drawn upright with modules of any size from 16 pixels (14 with an alignment pattern in the lower right corner), large enough for its version to be right, with a light module around it, white paper to its left, no ten modules alike in its third row, and there are no candidates but those for its finder patterns, then its text is among the results of decoding the image.", "quantifier": "all images up to 2^22 pixels wide and high, positions, module sizes, versions, texts", "why_tests_cant": "combines the scan, the refinement, the search for triples, the sampling and the decoding over continuous positions and sizes", "anchors": ["src/detect/linescan.rs: detect", "src/extract/qr/mod.rs: extract", "src/decode/qr/decoder.rs: QRDecoder::decode", "src/decoder.rs: Decoder::decode"]}
{"id": "C85", "title": "Symbols with a margin of one module are read whatever surrounds them", "statement": "If a symbol is drawn upright or turned by quarter turns, with whole modules of at least two pixels and white one module wide around its finder patterns, and left of each of them no run of the row through its third row of modules is shorter than a tenth of the run before it, then its text is among the results of decoding the image, whatever the rest of the picture shows, unless something else is taken for a finder pattern close to one of its own.", "quantifier": "all images up to 2^26 pixels wide and high, positions, module sizes, versions, texts and surroundings", "why_tests_cant": "the standard asks for four modules; what the picture shows outside of the margin is unlimited", "anchors": ["src/detect/linescan.rs: detect, refine", "src/extract/qr/mod.rs: extract", "src/decode/qr/decoder.rs: QRDecoder::decode", "src/decoder.rs: Decoder::decode"]}
{"id": "C86", "title": "Symbols with small modules are read from gray paper", "statement": "If a picture of two tones shows a symbol in ink on paper of a tone of at most 250, with modules of two to ten pixels and ink not far from every light module, and the ink is not nearly black or the modules are large enough, then preparation makes the symbol and the rings around its finder patterns black and white, and an upright symbol with nothing to its left is read; with modules of 34 pixels or more, preparation makes the middle of every light module black.", "quantifier": "all pairs of tones, images, positions, module sizes, versions and texts", "why_tests_cant": "the paper far away from the ink comes out black, and where that begins depends on the blocks of the picture", "anchors": ["src/prepare/blockedmean.rs", "src/detect/linescan.rs: detect", "src/extract/qr/mod.rs: extract", "src/decoder.rs: Decoder::decode"]}
{"id": "C87", "title": "Every candidate is the centre of a cross", "statement": "If no run of a row or a column of a prepared picture is shorter than a tenth of the run before it, then every candidate for a finder pattern, and so every corner of every location, lies on a row with five stretches like those of a finder pattern, in the middle of them up to one pixel, and that row crosses a column with five such stretches in their middle, up to one and a half pixels, the lengths of both differing by less than a half; the same for a diagonal that passes the centre within about one pixel if the diagonals have no such runs either; a picture without such crossings has no candidates and no locations.", "quantifier": "all pictures up to 2^26 pixels wide and high", "why_tests_cant": "what is never found cannot be sampled: the statement is about everything a picture may show besides symbols", "anchors": ["src/detect/linescan.rs: detect, refine, refine_horizontal, refine_vertical, refine_diagonal"]}
{"id": "C88", "title": "Bar codes and stripes are never taken for symbols", "statement": "A picture whose columns change colour fewer than four times has no locations; the default decoder returns no result for a picture whose columns, or whose rows, are each of one gray value, however much these differ from each other.", "quantifier": "all pictures and gray values", "why_tests_cant": "the rows of a bar code may look exactly like a finder pattern, in any number and size", "anchors": ["src/prepare/blockedmean.rs", "src/detect/linescan.rs: detect, refine_vertical", "src/decoder.rs: Decoder::decode"]}
{"id": "C89", "title": "Symbols without decoys on white paper are read, and nothing else is", "statement": "If a picture shows nothing but a symbol, upright or turned by quarter turns, on white paper with a margin of four modules, with whole modules of at least two pixels, if no run of its rows and columns of modules is longer than ten times the next one, and if no row and column of modules crossing each other have the proportions of a finder pattern except in the middle of the finder patterns of the symbol, then the candidates are exactly the three centres of its finder patterns and the only result of decoding is its text; the default decoder reads it with modules of at least five pixels.", "quantifier": "all images up to 2^26 pixels wide and high, positions, module sizes, versions, directions and texts", "why_tests_cant": "the hypotheses are about the modules alone; no assumption is left on what the scan finds in the picture", "anchors": ["src/detect/linescan.rs: detect, refine, refine_vertical", "src/extract/qr/mod.rs: extract", "src/decode/qr/decoder.rs: QRDecoder::decode", "src/decoder.rs: Decoder::decode"]}
{"id": "C90", "title": "A symbol without decoys is decoded exactly as its modules are", "statement": "If a picture shows nothing but a symbol without decoys on white paper as in the previous claim, then decoding the picture gives exactly one result, and that is what decoding its modules gives, whether text or error; so pictures of the same symbol that differ in the size of the modules, the size of the paper, the position of the symbol or its direction are decoded alike by both default decoders; and damage to data and format information within what can be corrected is repaired and reported with the exact number of wrong bits.", "quantifier": "all images up to 2^26 pixels wide and high, positions, module sizes, versions, directions, and matrices of modules, readable or not", "why_tests_cant": "compares two runs of the whole pipeline on pictures that have nothing but the symbol in common", "anchors": ["src/detect/linescan.rs: detect", "src/extract/qr/mod.rs: extract", "src/decode/qr/decoder.rs: QRDecoder::decode, QRDecoderWithInfo::decode", "src/decoder.rs: Decoder::decode"]}
{"id": "C91", "title": "Without three finder patterns there is no result", "statement": "If a picture is made of square modules on white paper with a margin of four modules, shows at most two finder patterns, apart from each other, and no other row and column of modules crossing each other have the proportions of a finder pattern, and no run of its rows and columns is longer than ten times the next one, then decoding it gives no result, neither text nor error; so a symbol without decoys that has lost one of its finder patterns is not found at any size.", "quantifier": "all images up to 2^26 pixels wide and high, positions, module sizes, and matrices of modules of any size", "why_tests_cant": "a statement about everything else the modules may show; pictures of this kind are unlimited in number", "anchors": ["src/detect/linescan.rs: detect, refine", "src/decoder.rs: Decoder::decode"]}
