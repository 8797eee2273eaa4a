# Formal model of bardecoder in Rocq (Coq 8.16.1)

## Approach

The model is a set of total, computable Gallina functions, one per function of `/repo/src`, in
`rocq/theories/Model/`. Rust's `Result` and panics become one result type

    res A := Ok a | Err e | Panic p

so that "never panics" is a statement about the model. Integer overflow and out-of-bounds indexing are explicit
`Panic` values (the semantics of a build with overflow checks, as `cargo test` uses); where a release build would
wrap instead this is said at the definition. Loops are folds or fuelled recursions; running out of fuel is a
separate `Panic` value that theorems exclude. `f64` is the standard library's `SpecFloat` with prec 53, emax 1024
(an axiom free, executable definition of IEEE 754 binary64); proofs about it go through Flocq.

Specifications (the QR standard, GF(256) as polynomials, Reed-Solomon codes, bit streams, UTF-8) are in
`rocq/theories/Spec/` and do not import the model. `rocq/theories/Proofs/` holds lemmas, and
`rocq/theories/Props/` holds the property theorems with their concrete cases (`Example`).

Properties that the code violates get a theorem `..._refuted` with a concrete witness, and the strongest true
variant we can prove, named `..._partial` (or under its own name when it is a complete statement by itself).

## Plan per property

| id | what is modelled | how it is proved |
|----|------------------|------------------|
| C01-C04 | `Chomp` as a state record, `chomp`, `chomp_or_u16` | refinement to a list of bits; induction over the request list; C03, C04 also have refutations |
| C05-C07, C09-C13 | `data.rs` on top of the Chomp model | encoder written in Spec; parser-combinator style lemmas on bit lists; induction over the segment list |
| C08 | `String::from_utf8` as a decoder of the Unicode table 3-7 | UTF-8 encode/decode round trip; refuted without 0xC3 |
| C14 | tables and operators of `galois.rs` | finite sweeps lifted to all bytes; ring structure; refutation for 0/x |
| C15-C20 | `correct.rs`, loop by loop | Vandermonde and root counting arguments over GF(256); Gaussian elimination invariants; exact characterisation for a single error; refutations by computation |
| C21-C24 | `format.rs` | all 2^15 words or all error patterns, swept, lifted by linearity |
| C25-C29 | `blocks.rs`, `mod.rs` | symbolic over coordinates, sweeps over the 40 versions / 160 entries |
| C30-C37 | `decoder.rs` (decode/qr) | composition of the above |
| C38-C40 | `decoder.rs` | generic in the components (section variables closed by the theorem) |
| C41-C45 | `blockedmean.rs` on a grayscale image (the `image` crate's luma conversion is not modelled) | loop invariants on block sums; float comparison through Flocq where needed |
| C46-C49 | `linescan.rs` | loop invariants plus Flocq bounds for rounded coordinates |
| C50-C53, C56 | `extract/qr/mod.rs` | loop invariants; forward error bounds for every float operation, down to a 64th of a pixel |
| C57 | `blockedmean.rs` on images of two tones | counting the dark pixels in a window |
| C58, C59 | `linescan.rs` | the run lengths of the scanned row, column and diagonals computed for a drawn pattern; exact float arithmetic on halves |
| C60, C61 | whole default pipeline on painted symbols | composition of C56, C57, C58 with an exact calculation of the corner geometry; refutation by computation |
| C62, C63 | the same for turned symbols and several symbols in an image | as C60, in a frame of reference turned with the symbol |
| C64, C65, C66 | distorted symbols: which pixels are read, and which alignment patterns are found and accepted | `Spec/Perspective.v`: the bilinear map through the four centres, pixels that hold a point, runs between light pixels |
| C67 | a drawing is read exactly like its modules, errors and damage included | C62's drawings, `Spec/Encoder.v`, damage as in C37 |
| C68, C69 | version 1 under any affine map; symbols of all versions drawn at any angle, sampled from a given location | `Spec/Angle.v`: squares with sides in the directions (c, s) and (-s, c), affine maps through the three centres |
| C70, C71 | other brightness and contrast; noise of at most 4 | stated on the values of the pixels, in `Props/NoiseProps.v` |
| C72 | the `debug-images` feature (`Model/Debug.v`) | drawing either succeeds or panics; bounds of the loops; the sample points of C51 |
| C73, C74 | finder patterns at any angle | `Spec/Slant.v`: the nine by nine drawing of `Spec/Angle.v`; runs of a row (`steady`); positions and sizes are real numbers |
| C75, C76 | which candidates make a symbol | `symbol_like`, `near_centre`, `straight_enough` in `Props/TiltProps.v`: real numbers, norms and a cross product |
| C77, C78 | turned symbols from rough corners, and from the picture | `Spec/Angle.v`: the drawing; `off_at_most`, `visible`, `unhidden` in `Props/InexactProps.v` |
| C79 | uneven light | numbers of dark and light pixels in the window of `Spec/Window.v`, bounds for their tones |
| C80, C81 | negatives and mirror images | `recolour`, `mirrored` in `Props/ReversalProps.v`; `Spec/Symbol.v` for the format |
| C82, C83, C84 | upright symbols whose modules are not a whole number of pixels | the drawing of `Spec/Angle.v` with angle 0; `found_upright`, `at_corner` in `Props/StraightProps.v`; `margined`, `third_row_steady` in `Props/UprightProps.v` |
| C85, C86 | symbols with a narrow margin, and on gray paper | `Spec/Margin.v`: `finder_apart`, `inked`, `ink_near`; `symbol_near` in `Props/MarginProps.v`, `gray_print` in `Props/GrayProps.v` |
| C87, C88 | where candidates come from | `Spec/Cross.v`: `five_stretches`, `crossing`, `diagonal_of`; `steady_picture` in `Props/SoundProps.v` |
| C89 | symbols on white paper without decoys | `Spec/Decoy.v`: `decoy`, `only_finders`, `steady_modules`, `mosaic`; `undisturbed`, `symbol_on_white` in `Props/DecoyProps.v` |
| C90 | symbols without decoys are decoded as their modules are | as C89; `painted_well` in `Props/SameProps.v` |
| C91 | pages with fewer than three finder patterns | as C89; `few_finders` in `Props/FewProps.v` |
| C54 | whole default pipeline | refuted by concrete images; conditional positive statement |

## Trusted base

* Coq 8.16.1's kernel (including `vm_compute`, which the gate rechecks with `coqchk` without the VM).
* The axioms that `Print Assumptions` lists for each theorem are in `ASSUMPTIONS.md` (generated by
  `tools/assumptions.py`). Most theorems are closed under the global context. The theorems that reason about doubles
  through Flocq's real numbers rest on four axioms of the standard library: `Classical_Prop.classic`,
  `FunctionalExtensionality.functional_extensionality_dep`, `ClassicalDedekindReals.sig_forall_dec` and
  `ClassicalDedekindReals.sig_not_dec`. There are no axioms of our own and none of other libraries.
* The reading of the Rust code as the Gallina functions of `Model/` (each cites its lines), and the reading of the
  standard in `Spec/`.

## What is modelled

| code | model |
|------|-------|
| `util/chomp.rs` | `Model/Chomp.v`, all of it |
| `util/qr.rs` | `Model/QR.v`; `QRLocation` is `qrloc` in `Model/Detect.v`; errors are constructors in `Model/Base.v` |
| `util/point.rs` | `Model/Float.v`, `Model/Detect.v` (norm) |
| `decode/qr/galois.rs`, `correct.rs`, `data.rs`, `format.rs`, `blocks.rs`, `mod.rs`, `decoder.rs` | `Model/Galois.v`, `Correct.v`, `Data.v`, `Format.v`, `Blocks.v`, `BlockInfo.v`, `QRDecoder.v` |
| `prepare/blockedmean.rs` | `Model/Prepare.v`, from the grayscale image on |
| `detect/linescan.rs` | `Model/Detect.v` |
| `extract/qr/mod.rs` | `Model/Extract.v` |
| the feature `debug-images` of these two | `Model/Debug.v`: the bounds of what is drawn |
| `decoder.rs`, the builder and `Decoder::decode` | `Model/Pipeline.v`, generic in the components |

Not modelled: logging macros, the colours and the saving of the pictures of `debug-images`, the text of error messages (errors are constructors with the
parameters of the message), allocation failure, the `image` crate (an image is its dimensions and its pixels;
`imageops::grayscale` is an arbitrary function in the theorems about the pipeline), and the `anyhow` wrapping of
errors.

## How the model was compared with the code

The code cannot be run here, but its tests say what it computes. `Props/RepoTests.v` runs all unit tests of `/repo/src`
on the model. Outside this repository the model was also compiled with Coq's extraction (pixels kept in an array,
nothing else changed) and run on the pictures of `/repo/tests/images`: all of `tests/image_tests.rs` comes out as
expected, photos included, with the same versions, levels, sizes and numbers of corrected bytes; only
`version40_example.png` was left out for its running time. The readers for the picture formats were written for this
purpose, so gray levels of the JPEG photos may differ slightly from those of the image crate. The program for this run is
not kept here, because the repository holds no OCaml; nothing is proved from it.

## What turned out to be false

The statement in `properties.jsonl` is what a user would rely on; where the code violates it, the manifest says
"partial", a `_refuted` theorem gives the witness, and `_partial` theorems say what does hold. In short:

* C03, C04: a refused `chomp` may spoil the next one; reads of 17 bits and more drop or panic.
* C08: UTF-8 without a byte 0xC3 is taken for ISO 8859-1.
* C12, C33, C54: an odd alphanumeric segment with a last value of 45..63 panics.
* C13: numeric groups an encoder never writes print too many digits.
* C14: 0/b is 1/b. C16, C20: because of it, certain damage within capacity is rejected or silently miscorrected.
* C17, C24: the check after correction only looks at one syndrome.
* C22: the last bit of the format information is never repaired; some triple errors are silently misread.
* C35: `total_data` leaves out the error correction codewords.
* C42, C54: images smaller than a block panic. C43: the threshold window is one block short at the right and bottom.
* C51, C54: samples of a located but sheared symbol can leave the image and panic.
* C70: blank paper comes out black or white depending on the light (limits 5 and 250 for the mean).
* C72: debug pictures panic when a dark sample lies in the last row of an image that is wider than high.
* C74: the centre of a turned finder pattern is missed by more than half a module (the first row that fits decides).
* C76: the exact centres of a version-1 symbol with slope 3/4 are not located (the module size along rows is 1.25 times the real one).
* C80, C81: negatives and mirror images are located but not read: their format information comes out as that of another level and mask.
* C83: a symbol of version 40 with modules of 7.125 pixels is taken for version 41 when its module size is measured as 7.
* C66: the alignment pattern test never looks at the right column of the ring, nor at four modules of the border.
* C59, C61: `slide` drops a run shorter than a tenth of the run before it, so a white run of more than ten modules
  with something dark before it swallows the first column of a finder pattern. Ink far to the left of a symbol, or the
  modules of the symbol itself, hide it.

Found on the way, without a property of their own: the finder test ignores colours and decides run lengths like
m, m, 2m, m, m by rounding noise; `is_alignment` never looks at the right inner column; dots of 2 by 2 pixels vanish
in preparation, and gray paper of at most 250 comes out black where no ink is near (both in C57),
so that modules of 34 pixels get black spots (C86).
