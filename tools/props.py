import json
P=[]
def p(title, statement, quantifier, why, anchors):
    P.append(dict(id="C%02d"%(len(P)+1), title=title, statement=statement, quantifier=quantifier, why_tests_cant=why, anchors=anchors))

# --- bit reader
p("Chomp reads consecutive bits",
  "On a Chomp built from any byte vector, any sequence of chomp(n) calls with n in 1..8 returns, as long as enough bits are left, exactly the next n bits (most significant first) of the concatenated bytes; as long as no call has failed, a call succeeds if and only if at least n bits are left.",
  "every byte vector, every finite sequence of requests, every request size 1..8",
  "the state space is byte vectors times request histories; alignment of requests to byte borders is history dependent",
  ["src/util/chomp.rs: Chomp::new, Chomp::chomp, Chomp::nibble"])
p("Chomp never invents or reorders bits",
  "Whatever requests were made before, including refused ones (size 0, size above 8, too few bits left), every value Chomp returns is the run of bits directly after the last bit returned earlier.",
  "every byte vector and every finite history of chomp calls with arbitrary u8 sizes",
  "histories mixing refused and granted requests are unbounded",
  ["src/util/chomp.rs: Chomp::chomp"])
p("A refused chomp leaves the remaining bits readable",
  "If chomp(n) returns None, a later request for bits that are still there is granted as if the refused call had not been made (the documentation's own example relies on this).",
  "every byte vector and every history ending in a refused request",
  "the refusal updates the internal counter only in some byte alignments; the documented example passes",
  ["src/util/chomp.rs: Chomp::chomp (bits_left update before peek)"])
p("chomp_or_u16 reads up to 16 bits",
  "chomp_or_u16(n, err) with n in 1..16 returns the next n bits as one number, or err if fewer are left; with n above 16 it returns err, as documented.",
  "every byte vector, every history, every n in 0..255",
  "the loop overwrites its accumulator, which only shows for n above 16",
  ["src/util/chomp.rs: Chomp::chomp_or_u16"])
# --- data segments
p("Numeric segments round-trip",
  "For every version 1..40 and every digit string that fits the version's character count field, the bit stream an encoder writes for it decodes to that string.",
  "every digit string (any length the count field can express) and version",
  "lengths mod 3 and group values are unbounded in combination",
  ["src/decode/qr/data.rs: data, numeric"])
p("Alphanumeric segments round-trip",
  "For every version 1..40 and every string over the 45 character alphabet that fits the count field, the encoded bit stream decodes to that string.",
  "every alphanumeric string and version",
  "odd/even lengths times 45^n strings",
  ["src/decode/qr/data.rs: alphanumeric, ALPHANUMERIC"])
p("Byte segments without 0xC3 decode as ISO 8859-1",
  "A byte segment that holds no byte 0xC3 decodes to the string whose characters are the bytes as ISO 8859-1, so any ISO 8859-1 text without that byte round-trips.",
  "every byte string up to the count field's limit, every version",
  "256^n inputs",
  ["src/decode/qr/data.rs: eight_bit"])
p("UTF-8 text in byte segments round-trips",
  "Any text encoded as UTF-8 in a byte segment decodes to that text.",
  "every Unicode string up to the count field's limit",
  "the choice of charset is a heuristic on one byte value; tests use strings on one side of it",
  ["src/decode/qr/data.rs: eight_bit (may_be_utf8)"])
p("Mixed segment streams decode to the concatenation",
  "A stream of any number of numeric, alphanumeric and byte segments in any order, ended by a terminator followed by arbitrary padding, or by fewer than four left over bits, decodes to the concatenation of the segments' texts.",
  "every list of segments, every version, every padding",
  "segment boundaries fall on every bit offset",
  ["src/decode/qr/data.rs: data"])
p("Truncated streams are rejected",
  "If a segment announces more characters than the remaining bits can hold, decoding fails with an error; it never returns a shortened text.",
  "every prefix of every encoded stream that ends inside a segment",
  "cut points range over all bit positions",
  ["src/decode/qr/data.rs: numeric, alphanumeric, eight_bit"])
p("Unsupported modes are reported",
  "When the next mode indicator is not numeric, alphanumeric, byte or terminator, decoding fails with an error that names that mode, whatever came before.",
  "every list of leading segments, every unsupported mode, every continuation",
  "any position in the stream",
  ["src/decode/qr/data.rs: data"])
p("Payload decoding never panics",
  "Decoding the payload of any codeword sequence returns a text or an error and never aborts the program.",
  "every byte sequence and every version number",
  "panics hide behind rare field values",
  ["src/decode/qr/data.rs: alphanumeric (ALPHANUMERIC[chars])"])
p("A numeric segment of n characters yields n digits",
  "If a numeric segment announces n characters and decodes successfully, the text has exactly n characters, all decimal digits.",
  "every numeric segment bit pattern",
  "groups above 999 are never produced by encoders under test",
  ["src/decode/qr/data.rs: numeric"])
# --- Galois / RS
p("Correction arithmetic is GF(256)",
  "Addition, multiplication and division used by the error correction are those of GF(2)[x]/(x^8+x^4+x^3+x^2+1): sums and products agree with polynomial arithmetic, and a quotient times its divisor gives back the dividend for every non-zero divisor.",
  "all pairs of bytes",
  "unit tests sample a handful of pairs, none with a zero dividend",
  ["src/decode/qr/galois.rs: GF8, EXP8, LOG8"])
p("Undamaged blocks pass unchanged",
  "A block that is a valid Reed-Solomon codeword comes back unchanged with an error count of 0.",
  "every block structure of the table and every codeword",
  "256^k codewords",
  ["src/decode/qr/correct.rs: correct_with_error_count, calculate_syndromes"])
p("Blocks within the correction capacity are restored",
  "A block that differs from a valid codeword in at most ec_cap codewords is restored to that codeword.",
  "every block structure, codeword and error pattern of weight at most ec_cap",
  "error patterns are astronomically many; failures need coincidences (a zero in an intermediate row)",
  ["src/decode/qr/correct.rs: find_locs, calculate_distances, solve", "src/decode/qr/galois.rs: Div for GF8"])
p("An accepted block is a valid codeword",
  "If error correction accepts a block, the block it returns is a valid codeword (all the syndromes it uses are zero).",
  "every received block",
  "only one of the syndromes is checked at the end",
  ["src/decode/qr/correct.rs: correct_with_error_count lines 45-49"])
p("The reported error count is the number of bits changed",
  "When error correction accepts a block, the returned block has the same length, and the reported error count is the number of bits in which it differs from the received block.",
  "every received block of the right length",
  "holds for every combination of positions and magnitudes",
  ["src/decode/qr/correct.rs: correct_with_error_count"])
p("Error correction never panics",
  "For every block of the length its block structure demands, error correction returns a block or an error and never aborts, however damaged the block is.",
  "every block structure of the table and every received block",
  "index bounds depend on how many roots the locator polynomial has",
  ["src/decode/qr/correct.rs: find_locs, calculate_distances, solve"])
p("A single damaged codeword is repaired",
  "If exactly one codeword of a block is damaged, in any position and by any value, the block is restored.",
  "every block structure, codeword, position and error value",
  "depends on spurious roots of the locator polynomial, a number theoretic coincidence per position",
  ["src/decode/qr/correct.rs: find_locs, calculate_distances, solve"])
# --- format
p("Intact format information is read correctly",
  "From a symbol of any version whose first format copy holds the standard's code word for an error correction level and a mask, exactly that level and that mask are read.",
  "all 32 format values, all versions, all other modules arbitrary",
  "all other modules are free",
  ["src/decode/qr/format.rs: format, format1, error_correction, mask"])
p("Up to three wrong format bits are repaired",
  "If at most three of the fifteen bits of the first format copy are wrong, the right level and mask are read.",
  "all 32 format values, all error patterns of weight at most 3, any second copy",
  "575 patterns times 32 values times all second copies",
  ["src/decode/qr/format.rs: correct"])
p("The second format copy is the fallback",
  "If the first format copy is found to be beyond repair, the outcome is exactly the outcome of reading the second copy, and an error is returned only if both are beyond repair.",
  "every pair of format copies",
  "2^30 pairs of copies",
  ["src/decode/qr/format.rs: format, format2"])
p("Accepted format information is a BCH code word",
  "If format information is accepted, the fifteen corrected bits are one of the 32 code words of the standard.",
  "every 15 bit pattern",
  "only one syndrome is checked",
  ["src/decode/qr/format.rs: correct (s1 == 0)"])
# --- blocks
p("Mask patterns are those of the standard",
  "For each of the eight mask numbers the module value read is the pixel's value xor the standard's mask condition at its row and column, so masking twice is the identity.",
  "all masks, all coordinates",
  "coordinates are unbounded",
  ["src/decode/qr/format.rs: mask, qrmask"])
p("Data modules are exactly the non-function modules",
  "For every version 1..40 and every coordinate of the symbol, a module is used as data exactly when the standard assigns it to no finder, separator, timing, alignment, format or version area.",
  "all 40 versions, all coordinates",
  "about half a million modules, and the alignment positions are given by start and step instead of the standard's table",
  ["src/decode/qr/blocks.rs: is_data, is_alignment_coord, alignment_location"])
p("Codewords are read in the standard's order",
  "For every version, mask and level, the codeword stream read from a symbol is the sequence of data modules in the standard's zigzag order, each read exactly once, most significant bit first, with only the remainder bits dropped.",
  "all versions, levels, masks and all module contents",
  "module contents are free",
  ["src/decode/qr/blocks.rs: blocks, y_range, Codewords::add_bit"])
p("De-interleaving inverts the standard's interleaving",
  "For every version and level, the blocks obtained from the interleaving of any blocks of the right shape are those blocks.",
  "all versions, levels and block contents",
  "content free, shapes with two groups need a skip rule",
  ["src/decode/qr/blocks.rs: Blocks::push, Blocks::inc_count"])
p("The block table is the standard's",
  "For every version and level the number of blocks, their total and data lengths are those of the standard, they fill the symbol's capacity exactly, and the correction capacity is within what the error correction codewords allow.",
  "all 160 version/level pairs",
  "tests decode a few versions only",
  ["src/decode/qr/mod.rs: block_info"])
p("Undamaged symbols decode to their payload",
  "For every version, level, mask and every list of segments that fits, any module matrix that carries the standard's encoding of it in its data and format modules decodes to the payload text.",
  "all versions, levels, masks, payloads, and all contents of the function modules and remainder bits",
  "the whole input space of the decoder",
  ["src/decode/qr/decoder.rs: QRDecoder::decode", "src/decode/qr/*"])
p("Only data and format modules matter",
  "Two module matrices of the same version that agree on the format areas and data modules give the same result, so finder, timing, alignment and version areas may be damaged at will.",
  "all pairs of matrices of all versions",
  "pairs of 2^n matrices",
  ["src/decode/qr/decoder.rs", "src/decode/qr/blocks.rs: is_data", "src/decode/qr/format.rs"])
p("Unknown versions are errors",
  "A symbol whose version is not in 1..40 and whose data fills its square is rejected with an error, never a panic and never a text.",
  "all version numbers outside 1..40 and all contents",
  "unbounded version numbers",
  ["src/decode/qr/mod.rs: block_info", "src/decode/qr/blocks.rs: alignment_location"])
p("Decoding extracted data never panics",
  "For every QRData whose data has side*side entries, decode returns a text or an error and never aborts.",
  "every version and every module content",
  "panics hide in corner cases of arithmetic on corrupted input",
  ["src/decode/qr/decoder.rs: QRDecoder::decode"])
p("The two QR decoders agree",
  "QRDecoderWithInfo fails exactly when QRDecoder fails, with the same error, and otherwise returns the same text.",
  "every input, including errors passed in",
  "two copies of the loop could drift apart on some input",
  ["src/decode/qr/decoder.rs"])
p("QRInfo reports version, level, size and bit errors",
  "When QRDecoderWithInfo succeeds, the reported version is the symbol's, the level is the one in the format information, total_data is the number of bits in data and error correction codewords together, as documented, and errors is the total number of bits changed by error correction.",
  "every successfully decoded input",
  "tests pin single values only",
  ["src/decode/qr/decoder.rs: QRDecoderWithInfo::decode", "src/util/qr.rs: QRInfo"])
p("Errors from extraction are passed on",
  "If the extraction result is an error, both decoders return that very error.",
  "every error",
  "the trait contract says as-is, for all errors",
  ["src/decode/qr/decoder.rs", "src/decode/mod.rs"])
p("Damaged symbols decode when each block is repairable",
  "If every block of the received symbol differs from the encoded one only in ways the error correction repairs, and the format information is readable, the payload text is returned and errors is the total number of wrong bits.",
  "all versions, levels, masks, payloads and damage patterns within capacity",
  "damage patterns are unbounded combinations over blocks",
  ["src/decode/qr/decoder.rs", "src/decode/qr/correct.rs"])
# --- decoder pipeline
p("Builder: last component set wins, missing ones panic",
  "After any sequence of builder calls, build() yields a decoder made of the last component given for each role, and panics exactly when a role was never given a component; the default builders never panic.",
  "every sequence of builder calls",
  "histories of calls",
  ["src/decoder.rs: DecoderBuilder"])
p("One result per detected location, in order",
  "Decoder::decode returns exactly one result per location reported by the detector, in that order; each depends only on the prepared image and that location, so a failing code does not affect the others; no location gives an empty vector.",
  "every component implementation, every image",
  "components are arbitrary trait objects",
  ["src/decoder.rs: Decoder::decode"])
p("Default decoders agree on text",
  "On every image the default decoder and the default decoder with info return the same number of results, with equal texts or equal errors at each position, and panic on the same images.",
  "every image",
  "image space",
  ["src/decoder.rs: default_decoder, default_decoder_with_info"])
# --- prepare
p("Preparation gives a black/white image of the same size",
  "For every grayscale image and every block size for which preparation completes, the prepared image has the same dimensions and every pixel is 0 or 255.",
  "every image, every parameter pair",
  "image space",
  ["src/prepare/blockedmean.rs: prepare, to_threshold"])
p("Preparation accepts every image",
  "BlockedMean prepares any image, with any positive block sizes, without panicking.",
  "every image size and every pair of parameters",
  "tests use ordinary sizes; the failing ones are tiny or degenerate",
  ["src/prepare/blockedmean.rs: range, to_block_mean_map"])
p("The threshold is the mean of the surrounding block of blocks",
  "A pixel is white exactly when its value exceeds the mean of the block of blocks (block_mean_size blocks wide, centred at its block, cut at the border), except that means above 250 give white and means below 5 give black.",
  "every image and parameter pair, every pixel",
  "borders and partial blocks are position dependent",
  ["src/prepare/blockedmean.rs: to_block_mean_map, to_threshold"])
p("Preparation is local",
  "A prepared pixel depends only on its own value and the pixels within the block of blocks around it: changes elsewhere in the image do not alter it.",
  "every pair of images that agree in the window, every pixel",
  "pairs of images",
  ["src/prepare/blockedmean.rs"])
p("Blank images contain no code",
  "An image of one uniform gray value, of any size that can be prepared, decodes to an empty result vector.",
  "every gray value and every size",
  "sizes are unbounded, and the finder test uses rounded floating point numbers",
  ["src/prepare/blockedmean.rs", "src/detect/linescan.rs: detect, looks_like_finder"])
# --- detect
p("Detection never panics",
  "For every prepared image (of dimensions below 2^24) detection returns without panicking: every pixel it looks at lies inside the image and no counter overflows.",
  "every image content and size",
  "pixel coordinates come out of rounded floating point arithmetic",
  ["src/detect/linescan.rs"])
p("Detected locations are well formed",
  "Every location reported has version at least 1 and a positive finite module size, and its three corners are three different finder candidates.",
  "every image",
  "image space",
  ["src/detect/linescan.rs: detect, find_qr, find_qr_internal"])
p("Finder runs: perfect ratios accepted, gross deviations rejected",
  "Five runs of lengths m, m, 3m, m, m look like a finder for every module size m at least 1, in any context of earlier runs; a set of runs in which one deviates by more than two thirds (and a rounding margin) of the mean module is rejected.",
  "every module size up to 2^28",
  "floating point rounding for every size",
  ["src/detect/linescan.rs: QRFinderPattern::looks_like_finder, est_mod_size"])
p("Orientation is normalised",
  "In every reported location the top left corner is the one at the right angle, and the turn from top right to bottom left has the orientation of an unmirrored code.",
  "every candidate triple",
  "floating point for every triple",
  ["src/detect/linescan.rs: find_qr_internal"])
# --- extract
p("Extraction yields side*side image pixels",
  "When extraction succeeds, the data has exactly side*side entries, side = 17 + 4*version, the version is the location's, and every entry is the value of a pixel of the image.",
  "every image and location",
  "image and location space",
  ["src/extract/qr/mod.rs: QRExtractor::extract"])
p("Extraction never panics",
  "For every image and every location, extraction returns data or an error and never panics.",
  "every image, every location",
  "sample points can leave the image only for particular geometries",
  ["src/extract/qr/mod.rs: extract (get_pixel)"])
p("Axis-aligned symbols are sampled exactly",
  "If a version 1 symbol is drawn axis-aligned with m by m pixels per module anywhere in an image and the location gives its exact finder centres, extraction returns exactly the module matrix, for every m at least 2.",
  "all matrices, offsets and module sizes up to 2^20",
  "all module sizes and offsets, with floating point sampling",
  ["src/extract/qr/mod.rs"])
p("No alignment pattern, no data",
  "For versions above 1, if no alignment pattern is recognised at any of the probed positions, extraction fails with an error.",
  "every image and location",
  "image space",
  ["src/extract/qr/mod.rs: determine_perspective"])
p("Decoding an image never panics",
  "Decoder::decode of the default decoder returns a vector of results for every image, however small or damaged.",
  "every image",
  "image space; crashing images are rare or tiny",
  ["src/decoder.rs", "src/prepare/blockedmean.rs", "src/extract/qr/mod.rs", "src/decode/qr/data.rs"])
p("The version fits the measured size",
  "In every reported location the distance from the top left corner to one of the other corners, measured in modules of the reported size, differs by at most two modules (and a rounding margin) from the 4*version + 10 modules between the finder centres of a symbol of the reported version.",
  "every image",
  "floating point division and rounding for every pair of candidates",
  ["src/detect/linescan.rs: find_qr_internal"])
p("Drawn symbols of every version are sampled exactly and decode",
  "If a symbol of version 2 to 40 with its bottom right alignment pattern is drawn axis-aligned with m by m pixels per module anywhere in an image, and the location gives the finder centres up to a common offset of at most three eighths of a module, extraction returns exactly the module matrix; so for every version and level the stored text is decoded from the image and the location.",
  "all matrices with an alignment pattern, offsets, module sizes, versions, levels, masks, texts",
  "40 versions, all module sizes and offsets, with floating point sampling and perspective correction",
  ["src/extract/qr/mod.rs", "src/decode/qr/decoder.rs"])
p("Clean drawings pass preparation unchanged",
  "In a black and white image a pixel keeps its colour in preparation exactly when at least one in 51 pixels of its window has that colour; so a symbol drawn with at least five pixels per module and ten white pixels around it is not changed at all. For images of two tones the outcome is given by the numbers of dark and light pixels in the window.",
  "all black and white images, all two tone images, all pixels, all symbols, module sizes of at least 5 and offsets",
  "every arrangement of pixels in a window of up to 30 by 30 pixels",
  ["src/prepare/blockedmean.rs"])
p("A drawn finder pattern is located exactly",
  "If a finder pattern is drawn with m by m pixels per module (m at least 2) with light modules around it, and no run of pixels in its third row that ends at the pattern or before it is longer than ten modules, then the candidates of detection contain one with module size exactly m at its centre (half a pixel to the right, at most half a pixel up), or another candidate is closer than seven modules to where the scan meets the pattern.",
  "all images up to 2^26 pixels wide and high, all positions and module sizes",
  "image space; every position of the pattern and everything else in the picture",
  ["src/detect/linescan.rs: detect, scan, refine, slide"])
p("Ink elsewhere does not hide a finder pattern",
  "A finder pattern drawn with its light surroundings is found (or another candidate is in its place) whatever else is in the picture.",
  "all images with a drawn finder pattern",
  "the hiding ink may be anywhere in the row",
  ["src/detect/linescan.rs: slide"])
p("A clean drawing of a symbol is decoded end to end",
  "If a symbol that encodes a text (any version, level, mask and segments) is painted black on white with at least five pixels per module and ten white pixels around, its third row has no eleven modules alike in front of the upper right finder pattern, and nothing else in it is taken for a finder pattern close to one of the three, then the default decoder delivers the text; and exactly this one result if there are just three candidates.",
  "all texts, versions, levels, masks, module sizes and offsets",
  "the whole pipeline with floating point, for every content",
  ["src/decoder.rs", "src/prepare/blockedmean.rs", "src/detect/linescan.rs", "src/extract/qr/mod.rs", "src/decode/qr/decoder.rs"])
p("Every correct symbol on white paper is detected",
  "A correct symbol drawn alone on white paper is among the locations of detection, whatever its text.",
  "all texts, versions, levels and masks",
  "which texts give the fatal row depends on the error correction codewords",
  ["src/detect/linescan.rs"])
p("Turned symbols are decoded",
  "A symbol turned by any multiple of ninety degrees and drawn with m by m pixels per module (m at least 2) and a light module around it in an image is located with its own top left corner and its version, sampled exactly and decoded to its text, unless something close to one of its finder patterns is taken for a finder pattern, or a run of more than ten modules in a row through a finder pattern hides it; and this is the only result if there are just three candidates.",
  "all texts, versions, levels, masks, module sizes, positions and the four directions",
  "the whole pipeline with floating point, for every content and direction",
  ["src/detect/linescan.rs", "src/extract/qr/mod.rs", "src/decode/qr/decoder.rs", "src/decoder.rs"])
p("All symbols of a page are decoded",
  "If several symbols, each turned in any of the four directions, are drawn in one image under the conditions of the previous property and decoding does not panic, the texts of all of them are among the results; in particular the default decoder finds them all on a black and white page of at least five pixels per module with a margin of ten pixels.",
  "all numbers of symbols, texts, versions, levels, masks, positions and directions",
  "the number of arrangements of several symbols",
  ["src/detect/linescan.rs", "src/extract/qr/mod.rs", "src/decode/qr/decoder.rs", "src/decoder.rs", "src/prepare/blockedmean.rs"])
p("The modules of a distorted symbol are read where the four patterns put them",
  "When extraction of a symbol of version 2 or above succeeds, every module has been read from the pixel that holds its image (up to a 64th of a pixel) under the one map, linear along rows and columns, that takes the centres of the three finder patterns to the corners of the location and the centre of the alignment pattern to the centre measured in the image; the measured centre lies half way between the light pixels around a black pixel at most one and a half modules off the expected place, where the pattern was accepted.  Conversely, if a pattern is shown at one of the places tried, everything acceptable leads to the same centre and all modules are clearly drawn under that map, then exactly the modules are delivered, and the text.",
  "all images, locations, versions above 1, distortions and texts",
  "the map depends continuously on eight coordinates, and is computed incrementally with rounding",
  ["src/extract/qr/mod.rs: extract, determine_perspective, is_alignment"])
p("An alignment pattern close to its place is found",
  "If all 25 modules of the alignment pattern are clearly visible at one of the places and sizes tried, extraction does not report a missing alignment pattern; in particular not when a pattern of the right size is drawn less than thirteen eighths of a module away from its place in both directions.",
  "all images, locations, module sizes and displacements",
  "the search has 294 steps with rounded coordinates",
  ["src/extract/qr/mod.rs: determine_perspective, is_alignment"])
p("An accepted alignment pattern is complete",
  "When extraction of a symbol of version 2 or above succeeds, there is a place among those tried where all 25 modules of an alignment pattern have their colours.",
  "all images and locations",
  "a missing comparison shows only in images made for it",
  ["src/extract/qr/mod.rs: is_alignment"])
p("A drawing is read exactly like its modules, whatever they are",
  "If any matrix of modules with its function patterns is drawn in one of the four directions, with m by m pixels per module and a light module around it, nothing else is taken for a finder pattern close to one of the three and no long run hides one, then the outcome of decoding those modules, a text or an error, is among the results of the whole decoder; it is the only result, or the only panic, if there are just three candidates.  So a printed symbol with damage that error correction can repair is read, with the number of repaired errors reported.",
  "all module matrices, versions, module sizes, positions, directions, preparations and last stages of the decoder; all repairable damage",
  "damage may be anywhere in the modules, combined with every content, size and direction",
  ["src/decoder.rs", "src/detect/linescan.rs", "src/extract/qr/mod.rs", "src/decode/qr/decoder.rs"])
p("The modules of a symbol of version 1 are read where the three finder patterns put them",
  "When extraction of a symbol of version 1 succeeds, every module has been read from the pixel that holds its image (up to a 64th of a pixel) under the affine map that takes the centres of the three finder patterns to the corners of the location; and if all modules are clearly drawn under that map, exactly the modules are delivered, and the text.",
  "all images, locations with coordinates up to 2^23, shears, angles and texts",
  "the map depends continuously on six coordinates, and is computed incrementally with rounding",
  ["src/extract/qr/mod.rs: extract, determine_perspective"])
p("Symbols at any angle are sampled exactly",
  "If a symbol is drawn at any angle, every pixel with the colour of the module its middle belongs to, and a location gives the centres of its finder patterns up to a common error of at most o pixels per coordinate, then extraction delivers exactly the modules, and decoding the text: for version 1 if modules are at least 3/2 + 3 o pixels wide, for the versions above, with their bottom right alignment pattern, if they are at least 11 + 10 o pixels wide.",
  "all angles, positions, module sizes (not only whole pixels), versions, matrices and texts; images up to 2^22 pixels wide and high",
  "angles and module sizes are continuous, and the measured centre of a turned alignment pattern depends on how the squares meet the pixels",
  ["src/extract/qr/mod.rs", "src/decode/qr/decoder.rs"])
p("Brightness and contrast do not matter",
  "If the values of two images are related by p' = (a p + b) / k with positive a and k, they are prepared to the same black and white image.",
  "all images, block sizes, brightness and contrast changes",
  "the comparison with the mean is done in floating point, with special cases for very dark and very light windows",
  ["src/prepare/blockedmean.rs"])
p("A little noise does not matter",
  "If every value of a page with a symbol (five pixels or more per module, ten white pixels around) is changed by at most 4, preparation gives the clean page, and the default decoders the same results as for the clean page; a pixel of any noisy black and white image keeps its colour if five in 251 pixels of its window have that colour.",
  "all noise of at most 4, images, symbols, module sizes and positions",
  "there are 9 possible values for every pixel",
  ["src/prepare/blockedmean.rs", "src/decoder.rs"])
p("Debug pictures do not change results",
  "With the feature `debug-images`, which draws pictures of the candidates, of the alignment pattern and of the samples for the developer, a decoder gives the same results as without it.",
  "all preparations, images and decoders of modules",
  "the drawing loops compute their bounds from floating point positions; the tests run without the feature, and on pictures with a margin",
  ["src/detect/linescan.rs: detect", "src/extract/qr/mod.rs"])
p("Finder patterns are found at any angle",
  "If a finder pattern with its light ring is drawn at any angle, every pixel with the colour of the module its middle belongs to, with modules of at least 18 pixels, and in the row of pixels nearest to its centre no run of one colour up to the pattern is shorter than a tenth of the run before it, then detection has a candidate for it: one within 23/5 pixels of its centre across and 18/5 down, with the module size measured along rows and columns; or else one found earlier, at a distance below seven modules and five pixels, for which the code passes over the rest.",
  "all images up to 2^26 pixels wide and high, angles, positions, module sizes from 18 pixels",
  "angles and positions are continuous; the position is refined in floating point along a column, a row and a diagonal that cross the pattern aslant",
  ["src/detect/linescan.rs: detect, refine_vertical, refine_horizontal, refine_diagonal, refine"])
p("The centre of a turned finder pattern is found to within half a module",
  "In an image with nothing but a finder pattern at some angle, with modules of at least five pixels, detection has a candidate within half a module of its centre.",
  "all angles, positions and module sizes",
  "which row of pixels triggers the search first depends on the angle and on how the pattern meets the pixels",
  ["src/detect/linescan.rs: detect, refine"])
p("Three candidates like the corners of a symbol are located",
  "If three candidates form a corner of nearly ninety degrees with sides of nearly the same length, their module sizes are nearly the same, and the sides are within 1.999 modules of the length for version v whichever of the sizes is used, then location returns a symbol with these corners in the right roles and version v, whatever other candidates there are and in whatever order they were found.",
  "all lists of candidates, positions up to 2^31, versions",
  "the search runs through all ordered triples with floating-point distances, quotients and a cross product",
  ["src/detect/linescan.rs: detect, find_qr, find_qr_internal, diff, dist"])
p("A turned symbol gets its version",
  "If the three candidates are exactly at the centres of the finder patterns of a symbol of version v turned by any angle, with the module size measured along rows and columns, then location returns a symbol of version v.",
  "all angles, module sizes from 18 pixels, versions 1 to 40",
  "tests have upright symbols or fixed angles; the module size is overestimated by up to 41 per cent in between",
  ["src/detect/linescan.rs: find_qr_internal"])
p("Symbols at any angle are sampled exactly from rough corners",
  "If a symbol is drawn at any angle and each of the three corners of its location is off by at most o pixels, each in its own way, then extraction delivers exactly its modules and decoding its text, for version 1 with modules of at least 3/2 + 11 o pixels, and with an alignment pattern in the lower right corner of at least 11 + 21 o pixels.",
  "all images up to 2^22 pixels wide and high, angles, versions, errors of the corners",
  "errors of the corners are stretched by the extrapolation to the far corner, which no test measures",
  ["src/extract/qr/mod.rs: extract, determine_perspective, is_alignment"])
p("Turned symbols are read",
  "If a symbol is drawn at an angle not too large for its version, its finder patterns are visible, and no candidate near one of them is off by more than o pixels, with modules as large as for C77, then its text is among the results of decoding the image.",
  "all images up to 2^22 pixels wide and high, angles, versions, texts, other content of the image",
  "combines the scan, the refinement, the search for triples, the sampling and the decoding over continuous angles and positions",
  ["src/detect/linescan.rs: detect", "src/extract/qr/mod.rs: extract", "src/decode/qr/decoder.rs: QRDecoder::decode", "src/decoder.rs: Decoder::decode"])
p("Uneven light does not matter where ink and paper are mixed",
  "If an image shows a black and white drawing under uneven light, and in the window of every pixel the tones of paper and of ink vary little compared with the contrast between them (light tones times the number of light pixels less than the contrast times the number of dark ones, and the other way round), then the image is prepared to the drawing and decoded like it.",
  "all images, drawings and distributions of light",
  "tests have a few photos; the threshold depends on the sums over all windows",
  ["src/prepare/blockedmean.rs", "src/decoder.rs"])
p("Light symbols on dark ground are read",
  "What is read from a black and white image is read from its negative as well (ISO/IEC 18004 allows symbols with reversed reflectance).",
  "all black and white images, all texts",
  "no test has a negative; which pixels are looked at depends on all of the picture",
  ["src/detect/linescan.rs: detect, refine", "src/extract/qr/mod.rs: extract", "src/decode/qr/format.rs"])
p("Symbols in a mirror are read",
  "A symbol whose modules are mirrored at the diagonal is decoded to its text (ISO/IEC 18004 allows mirror images).",
  "all versions, levels, masks and texts",
  "no test has a mirrored symbol; there are 32 formats and the second copy is consulted for some of them",
  ["src/decode/qr/format.rs: format, format1, format2"])
p("Upright finder patterns with modules of any size are found near their centres",
  "If a finder pattern with its light ring is drawn upright with modules of any size from 7 pixels, not necessarily a whole number, at any position, and the uppermost row of pixels of its inner square has no run too short to be seen up to the pattern, then a candidate is found at most one pixel right of its centre, at most 2.17 pixels above or 1.51 below it, and with a module size that is right to a fifth of a pixel, unless a candidate close by was found before.",
  "all images up to 2^26 pixels wide and high, positions and module sizes, other content of the image",
  "tests have whole module sizes; which pixels a module gets depends on the fractional parts of position and size",
  ["src/detect/linescan.rs: detect, refine"])
p("An upright symbol gets its version",
  "If the three candidates are where C82 finds them for a symbol of version v drawn upright, with modules of any size from 7 pixels, then location returns a symbol of version v.",
  "all positions, module sizes from 7 pixels, versions 1 to 40",
  "a fifth of a pixel in the module size counts once for every module of the side of the symbol",
  ["src/detect/linescan.rs: find_qr_internal"])
p("Upright symbols with modules of any size are read",
  "If a symbol is drawn upright with modules of any size from 16 pixels (14 with an alignment pattern in the lower right corner), large enough for its version to be right, with a light module around it, white paper to its left, no ten modules alike in its third row, and there are no candidates but those for its finder patterns, then its text is among the results of decoding the image.",
  "all images up to 2^22 pixels wide and high, positions, module sizes, versions, texts",
  "combines the scan, the refinement, the search for triples, the sampling and the decoding over continuous positions and sizes",
  ["src/detect/linescan.rs: detect", "src/extract/qr/mod.rs: extract", "src/decode/qr/decoder.rs: QRDecoder::decode", "src/decoder.rs: Decoder::decode"])
p("Symbols with a margin of one module are read whatever surrounds them",
  "If a symbol is drawn upright or turned by quarter turns, with whole modules of at least two pixels and white one module wide around its finder patterns, and left of each of them no run of the row through its third row of modules is shorter than a tenth of the run before it, then its text is among the results of decoding the image, whatever the rest of the picture shows, unless something else is taken for a finder pattern close to one of its own.",
  "all images up to 2^26 pixels wide and high, positions, module sizes, versions, texts and surroundings",
  "the standard asks for four modules; what the picture shows outside of the margin is unlimited",
  ["src/detect/linescan.rs: detect, refine", "src/extract/qr/mod.rs: extract", "src/decode/qr/decoder.rs: QRDecoder::decode", "src/decoder.rs: Decoder::decode"])
p("Symbols with small modules are read from gray paper",
  "If a picture of two tones shows a symbol in ink on paper of a tone of at most 250, with modules of two to ten pixels and ink not far from every light module, and the ink is not nearly black or the modules are large enough, then preparation makes the symbol and the rings around its finder patterns black and white, and an upright symbol with nothing to its left is read; with modules of 34 pixels or more, preparation makes the middle of every light module black.",
  "all pairs of tones, images, positions, module sizes, versions and texts",
  "the paper far away from the ink comes out black, and where that begins depends on the blocks of the picture",
  ["src/prepare/blockedmean.rs", "src/detect/linescan.rs: detect", "src/extract/qr/mod.rs: extract", "src/decoder.rs: Decoder::decode"])
p("Every candidate is the centre of a cross",
  "If no run of a row or a column of a prepared picture is shorter than a tenth of the run before it, then every candidate for a finder pattern, and so every corner of every location, lies on a row with five stretches like those of a finder pattern, in the middle of them up to one pixel, and that row crosses a column with five such stretches in their middle, up to one and a half pixels, the lengths of both differing by less than a half; the same for a diagonal that passes the centre within about one pixel if the diagonals have no such runs either; a picture without such crossings has no candidates and no locations.",
  "all pictures up to 2^26 pixels wide and high",
  "what is never found cannot be sampled: the statement is about everything a picture may show besides symbols",
  ["src/detect/linescan.rs: detect, refine, refine_horizontal, refine_vertical, refine_diagonal"])
p("Bar codes and stripes are never taken for symbols",
  "A picture whose columns change colour fewer than four times has no locations; the default decoder returns no result for a picture whose columns, or whose rows, are each of one gray value, however much these differ from each other.",
  "all pictures and gray values",
  "the rows of a bar code may look exactly like a finder pattern, in any number and size",
  ["src/prepare/blockedmean.rs", "src/detect/linescan.rs: detect, refine_vertical", "src/decoder.rs: Decoder::decode"])
p("Symbols without decoys on white paper are read, and nothing else is",
  "If a picture shows nothing but a symbol, upright or turned by quarter turns, on white paper with a margin of four modules, with whole modules of at least two pixels, if no run of its rows and columns of modules is longer than ten times the next one, and if no row and column of modules crossing each other have the proportions of a finder pattern except in the middle of the finder patterns of the symbol, then the candidates are exactly the three centres of its finder patterns and the only result of decoding is its text; the default decoder reads it with modules of at least five pixels.",
  "all images up to 2^26 pixels wide and high, positions, module sizes, versions, directions and texts",
  "the hypotheses are about the modules alone; no assumption is left on what the scan finds in the picture",
  ["src/detect/linescan.rs: detect, refine, refine_vertical", "src/extract/qr/mod.rs: extract", "src/decode/qr/decoder.rs: QRDecoder::decode", "src/decoder.rs: Decoder::decode"])
p("A symbol without decoys is decoded exactly as its modules are",
  "If a picture shows nothing but a symbol without decoys on white paper as in the previous claim, then decoding the picture gives exactly one result, and that is what decoding its modules gives, whether text or error; so pictures of the same symbol that differ in the size of the modules, the size of the paper, the position of the symbol or its direction are decoded alike by both default decoders; and damage to data and format information within what can be corrected is repaired and reported with the exact number of wrong bits.",
  "all images up to 2^26 pixels wide and high, positions, module sizes, versions, directions, and matrices of modules, readable or not",
  "compares two runs of the whole pipeline on pictures that have nothing but the symbol in common",
  ["src/detect/linescan.rs: detect", "src/extract/qr/mod.rs: extract", "src/decode/qr/decoder.rs: QRDecoder::decode, QRDecoderWithInfo::decode", "src/decoder.rs: Decoder::decode"])
p("Without three finder patterns there is no result",
  "If a picture is made of square modules on white paper with a margin of four modules, shows at most two finder patterns, apart from each other, and no other row and column of modules crossing each other have the proportions of a finder pattern, and no run of its rows and columns is longer than ten times the next one, then decoding it gives no result, neither text nor error; so a symbol without decoys that has lost one of its finder patterns is not found at any size.",
  "all images up to 2^26 pixels wide and high, positions, module sizes, and matrices of modules of any size",
  "a statement about everything else the modules may show; pictures of this kind are unlimited in number",
  ["src/detect/linescan.rs: detect, refine", "src/decoder.rs: Decoder::decode"])
open('/verif/properties.jsonl','w').write(''.join(json.dumps(x)+'\n' for x in P))
print(len(P))
