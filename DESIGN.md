# packed_simd in Rocq: design

The model lives in `rocq/theories` (logical name `Verif`). Nothing of `/repo`
is built or run; it is read as text.  Each definition of the model cites the
file and lines it follows.

## Layers

| directory | contents |
|---|---|
| `Model/` | the code, function by function (no proofs) |
| `Spec/` | small independent vocabulary used by the statements |
| `Proofs/` | lemmas |
| `Props/` | the property theorems, each closed by `exact lemma`, with `Print Assumptions` and a non-vacuity `Example` beside it |

## Representation

* A lane is its **bit pattern**: a `Z` in `[0, 2^(8*b))`, `b` = lane size in bytes
  (`nat`).  A vector is the `list Z` of its lanes, lane 0 first.  The signed or
  unsigned *value* of a pattern is computed by `Spec`'s `val`.  Scalars passed
  to or returned from the API are patterns too.
* A mask lane is the pattern of the `iN` that the crate stores: 0 or all ones.
* A vector type is a record (kind, bytes per lane, lane count).  Theorems
  range over *all* lane sizes and lane counts unless the code is a table of
  concrete types; in that case they range over the table.
* `outcome A = Ok a | Panic | UB`.  `assert!`, indexing panics = `Panic`;
  violated preconditions of compiler intrinsics (poison included), of
  `unreachable_unchecked` and of raw memory accesses = `UB`.
* The compile-time configuration (architecture, target features, endianness,
  pointer width, crate features, debug assertions) is a record `target`; cfg
  branches of the source are `if`s on it.
* Memory is a partial map from addresses to bytes; `mem::transmute`, unions
  and `ptr::copy` go through the byte image of a vector: lanes at increasing
  addresses, each lane in target endianness.
* Floats: lanes are IEEE bit patterns, decoded to `SpecFloat.spec_float`;
  arithmetic is the standard library's `SFadd`, `SFmul`, ... with
  (prec, emax) = (24,128) and (53,1024).  A NaN result gets one canonical pattern
  (payloads are not modelled).
* External math functions (LLVM's `fabs`, `sqrt`, `fma`, `sin`, ..., SLEEF's vector
  functions, the standard library's scalar `tanh`) are fields of a record `externals`
  that every math method takes as an argument: the theorems of C50/C51 hold for every
  such record whose functions work lane by lane (`works_lanewise`), and where they say
  more, for those that also do what the LLVM manual says (`follows_llvm`).
  `ref_externals` shows that these hypotheses can be met.
* `mem::uninitialized()` (used by the "twice" wrappers) is an extra argument `junk`, an
  arbitrary vector.

## Trusted base

* Coq 8.16.1's kernel (`vm_compute` included), the standard library, and Flocq 4.1.0
  for the rounding theorems of C44-C50.
* What `Print Assumptions` lists; recorded per theorem in the section
  "Assumptions" below.
* The reading of the compiler intrinsics (`codegen/llvm.rs` only declares
  them), of the `core::arch` intrinsics (movemask, testc/testz, pshufb, tbl,
  vpmin/vpmax, vminv/vmaxv, permutevar), and of `core`'s `align_offset`,
  `copy_nonoverlapping`, `Hash for [T;N]`, integer formatting. These are
  definitions in `Model/Llvm.v`, `Model/Arch.v`, ... written from their public
  documentation.

## Plan per property

| id | modelled | proof idea |
|---|---|---|
| C01 | `api/minimal/{iuf,mask}.rs` | list update laws; index < n bound from the `assert!` |
| C02, C03 | `api/slice/*.rs` over byte memory | chunk/byte-image lemmas, frame lemma for stores |
| C04, C05, C07, C08, C09, C10, C11 | `api/ops/*.rs` over intrinsics | modular arithmetic, `Z.testbit` extensionality |
| C06 | same, `UB` outcome | exact iff-characterisation + concrete witnesses of `UB` |
| C12, C13 | `vector_rotates.rs` through the same operators | testbit case analysis on `(W-n)%W`; witnesses for signed lanes |
| C14 | `vector_int_min_max.rs` through compare and select | lane-wise order reasoning |
| C15, C16, C17 | `api/cmp/*.rs`, loops of `partial_ord.rs` as recursion over lane indices | induction over lanes; relation to lexicographic order on value lists |
| C18, C19, C20 | `select.rs`, all mask producers | inductive syntax of safe mask programs, invariant by induction; witness for m128x1 |
| C21 | every implementation macro and the per-target tables of `codegen/reductions/mask*` | byte-image lemmas for canonical masks; case split over the tables |
| C22 | `bitmask.rs` | testbit of the packed integer, by induction |
| C23 | `shuffle!`, `__shuffle_vector*` | nth of map |
| C24, C25 | all arms of `codegen/shuffle1_dyn.rs` | byte-level index arithmetic; disagreement witnesses |
| C26, C52 | `swap_bytes` tables and `to_/from_{le,be}` | reversal of byte images |
| C27 | `bit_manip.rs` | counting over `Z.testbit` |
| C28..C31 | `api/reductions/*.rs`, both cfg branches | fold lemmas, permutation invariance |
| C32, C33 | cast/From tables | congruence mod 2^w; table checks lifted to all values by range lemmas |
| C34, C35 | union/transmute conversions, into_bits tables | byte-image round trip; uniform bytes of canonical masks |
| C36, C37, C43 | `api/minimal/ptr.rs` | modular arithmetic; witness |
| C38, C39 | `gather_scatter.rs` over memory | induction over lanes; last-writer lemma |
| C40 | `hash.rs` with a hasher as a parameter | equality of byte feeds |
| C41 | `api/fmt/*.rs` | string injectivity via a digit-reader |
| C42 | `default.rs` | all kinds |
| C44..C49 | float ops over `SpecFloat` | Flocq correctness of rounding; sign/NaN case analysis |
| C50, C51 | `codegen/math/float/*` dispatch tables | splitting/concatenation lemmas; witness for the `twice` wrapper |
| C54 | `into_bits/arch_specific.rs` tables | table check lifted to all values by byte-image lemmas; induction over conversion sequences |
| C55 | `math/float/consts.rs` | format limits from Flocq's bounds on the format; irrational constants from alternating series evaluated in rational arithmetic, rounded by a half-place lemma |
| C56 | `examples/triangle_xform` | run packing, transform and unpacking symbolically on eight triangles; affine meaning from the rounding lemmas of `+` and `*` |
| C57 | `examples/slice_sum` | sums of multiples of a unit 2^e below 2^24 units are exact in f32, by induction over vectors, groups and schedules; order of additions from the lane-wise `Sum` theorem |
| C58 | `examples/dot_product` | exactness of products on the product grid, then as C57 |
| C59 | `examples/mandelbrot` (both versions) | no re-entry: if the next squared norm is at most 4 then all intermediate values are finite and a real-number argument with error bounds (each rounding off by a millionth at most) gives that the previous one was; the first norm outside is a number, so both tests agree; induction over the iterations with the vector state as a map over points; error bounds place the default grid within the required disc |
| C60 | `examples/spectral_norm` (both versions) | induction over pairs of elements relates a row of the vector code to the scalar one; a sum that starts at +0 never becomes -0 and adding it to +0 changes nothing, which equates the horizontal sums; then induction over the iteration; the specification is relational, over IEEE operations |
| C61 | `examples/matrix_inverse` (both versions) | on scaled integers all products and sums of the cofactors and determinants are exact, so they are polynomials in the entries, compared by `ring` with the Laplace expansion; the division, Newton step and last product are bounded by Flocq's relative error of one rounding; the disagreement for arbitrary floats is a concrete witness |
| C62 | `examples/fannkuch_redux` (both versions) | permutations are numbered by a specification that rotates prefixes (factorial number system) and flips are an inductive relation; the loops keep "rotations below i are complete" as invariant, with a measure for termination; loops are functions with fuel and the theorems give a fuel from which on the result is constant; flips terminate by a weight argument; lanes of the dynamic shuffle come from the lemmas behind the `shuffle1_dyn` property |
| C63 | `examples/stencil` (all three versions) | a lemma about loops whose bodies change disjoint parts of an array (cells, rows of eight cells, planes) gives the effect of one time step on every cell; the history over time is built by induction; agreement follows because the scheme determines its result; independence of the order of the planes is proved for all data, also outside of the box condition |
| C64 | `examples/aobench/src/random.rs` (both generators) | the specification is a bit sequence with a recurrence and windows into it; one step of the code is shown to move the window, bit by bit, and the rest is induction on the number of draws; lanes: every vector operation is a map over a list of scalar states |
| C65 | `examples/aobench/src/intersection/*.rs`, `geometry/{vec,vecxN,ray,rayxN,plane,sphere}.rs` | the specification says with IEEE relations where a ray meets an object; packets: every vector operation is a map over lane numbers, so a packet is one function on lanes, which meets the specification like the scalar one; scenes: induction over the objects |
| C66 | the `debug_assertions` blocks of the same files | the check is a conjunction over lanes; level planes: adding and multiplying by 0 and 1 is exact, so both ways of computing give the same real numbers, and equal numbers other than 0 have equal bits; the refutation computes one lane symbolically in the multiply-add |
| C67 | `ortho_basis` and the matrix products of `geometry/{vec,vecxN}.rs` | one function over an abstract dot product, instantiated with both; packets as maps over lane numbers |
| C68 | `ambient_occlusion.rs` (`scalar`, `vector`), `scene/*.rs` | scenes are records with a state-passing random function; the loops are an iteration whose invariant says that the accumulator is the number of hits so far (exact below 2^24); cosine and sine are parameters, constrained only by a relation that the statement carries through; sums of lanes in any order are exact for small integers; random numbers: from C64 |
| C69 | `ambient_occlusion.rs` (`vector_tiled`) | the same invariant per lane; on the test scene the index arithmetic of the 128 numbers |
| C70 | `scalar.rs`, `vector.rs`, `scalar_parallel.rs`, `vector_parallel.rs` | the loops over a list of floats that holds the image, with bounds checks; one lemma on a loop that changes the three components of one pixel, then induction over the pixels with the image split in what is done and what is not; rayon's `par_chunks_mut` is the map over the pieces, with any start state for each piece; exactness: all sums are multiples of 1/256 below 4 |
| C71 | `tiled.rs`, `tiled_parallel.rs` | gathers and scatters on the list of floats, undefined behaviour outside of it; a packet redraws N pixels lane by lane; loops over disjoint parts of the image by induction; the rows as a list of turns in any order, each turn one packet of rays: invariant that every row is what it is alone |
| C72 | `image.rs` (`write_png` up to the encoder) | truncation and casts as in C49; induction over the pixels for the planes |
| C73 | `examples/options_pricing/src/{scalar,simd,simd_kernels,sum}.rs` | the specification writes both prices as formulas over the numbers of an option; a formula is computed if every operation is rounded, which the scalar code is shown to do step by step and a kernel lane by lane; the tree by induction on its levels; loops by induction on the number of options; exact sums as for C57 |
| C74 | `examples/options_pricing/src/{simd_par,lib}.rs` | the chunks run as a list of turns in any order, each writes its own eight results; refutation by a concrete run |
| C75 | `examples/nbody/src/{scalar,simd,lib}.rs` | the specification describes a step, the energy and the stopping as chains of formulas over a system of five bodies, with any way to evaluate formulas; the loops over the pairs are unrolled and shown to compute these chains in f64; the fourth lane by a case analysis of adding zeros; runs by induction on the number of steps, for the vector version backwards from a finite energy |
| C76 | the same | the same chains, evaluated in exact arithmetic, are solved for the new speeds and places; conservation by ring identities over the ten pairs and induction on the number of steps |
| C77 | `examples/mandelbrot/src/{lib,main}.rs` | a receiver is a number of bytes it still takes; writing piece by piece is shown to be the same as writing the whole; bits of a byte by cases, then equal parts of lists; the specification of the formats says what a file is, without the code; colours by cases of the remainder |
| C78 | the `Vec` operations of `examples/mandelbrot/src/{scalar_par,simd_par}.rs` | sizes are computed |
| C79 | the sums of `reductions/float_arithmetic.rs`, `slice_sum`, `dot_product` and `options_pricing` | invariant: a lane is within k roundings of an estimate (exact value, magnitudes, magnitudes and errors made before); one addition adds one rounding (relative error of addition, also for subnormal numbers), adding zero none; then induction over lanes, vectors and the schedule |
| C80 | `fmt/*.rs`, `minimal/ptr.rs`, `masks.rs` with an arbitrary writer (`FmtSink.v`) | the code is shown to offer one list of strings, whose concatenation is the text of C41; then induction over that list for the particular writers |
| C81 | `fmt/*.rs`, `minimal/ptr.rs` with the options of a format string (`FmtFlags.v`, which reads `core::fmt` for integers, pointers and bool) | what an element writes is shown to be a field as the specification describes it; distinct texts from that description: the fill characters are removed by a filter, leading zeros do not change the value of a numeral |
| C82 | `math/float/{recpre,rsqrte,mul_adde}.rs`, `product` of `reductions/float_arithmetic.rs` | from C44, C48 and C50, which say what is rounded: relative error of one rounding, then factors between (1-u)^k and (1+u)^k by induction over the lanes; nearest: a correctly rounded number is at least as near as any other |
| C83 | `aobench/src/random.rs` (model `ExRandom.v`) | polynomials over two elements act on the bit sequences: X^(2^k-1) = 1 and X^((2^k-1)/r) - 1 invertible for each prime factor r modulo the trinomials, computed in the kernel; primes by trial division; a sum of sequences with coprime cycles has their product as cycle |
| C84 | `aobench/src/random.rs`: `thread_rng`, `RngH`, `THREAD_RNG_KEY` (model `ExRandomCell.v`) | cells per thread and a table of handles; invariant over the history of events: the cell of a thread is the generator after as many draws as the thread has made |

Nothing in the list is inexpressible.

## What is modelled

| source | model |
|---|---|
| `src/v16.rs` .. `v512.rs`, `vSize.rs`, `vPtr.rs`, `src/api.rs` (which macro applies to which type) | `Tables.v`, `Base.v` |
| `api/minimal/{iuf,mask}.rs` | `Minimal.v` |
| `api/minimal/ptr.rs`, `api/ptr/gather_scatter.rs` | `Ptr.v` |
| `api/ops/*.rs` | `Ops.v`, `Float.v` (float min/max) |
| `api/cmp/*.rs` | `Cmp.v` |
| `api/slice/*.rs` | `Slice.v` |
| `api/cast/*.rs`, `api/from/*.rs`, `api/into_bits/*.rs` | `Cast.v`, `Bytes.v`, `Vendor.v` (`arch_specific.rs`) |
| `api/select.rs`, `api/shuffle.rs`, `codegen/shuffle.rs` | `Shuffle.v`, `Cmp.v` |
| `api/shuffle1_dyn.rs`, `codegen/shuffle1_dyn.rs` | `ShuffleDyn.v` |
| `api/swap_bytes.rs`, `codegen/swap_bytes.rs` | `SwapBytes.v` |
| `api/bit_manip.rs`, `codegen/bit_manip.rs`, `api/bitmask.rs` | `BitManip.v`, `MaskReduce.v` |
| `api/reductions/*.rs` | `Reduce.v` |
| `codegen/reductions/mask*` | `MaskReduce.v`, `Arch.v` |
| `api/hash.rs`, `api/default.rs`, `api/fmt/*.rs`, `masks.rs` | `Hash.v`, `Fmt.v`, `FmtSink.v`, `FmtFlags.v`, `ScalarMask.v` |
| `api/math/float/*.rs`, `codegen/math/float/*.rs` | `Float.v`, `FloatConsts.v`, `MathTables.v`, `Math.v` |
| `examples/{triangle_xform,slice_sum,dot_product}` | `ExTriangle.v`, `ExSum.v` (scalar `f32` arithmetic read as that of one lane; `f32: Sum` starts from 0.0; rayon's sum adds any split into consecutive parts) |
| `examples/mandelbrot/src/{lib,scalar_par,simd_par}.rs` | `ExMandelbrot.v` (the parallel loop over rows is a map; the ISPC version is not modelled) |
| `examples/spectral_norm/src/{lib,scalar,simd}.rs` | `ExSpectral.v` (vectors are owned lists; `usize` arithmetic wraps as in a release build) |
| `examples/matrix_inverse/src/{lib,scalar,simd}.rs` | `ExMatrix.v` (a matrix is a list of rows; the result is a new matrix) |
| `examples/fannkuch_redux/src/{scalar,simd}.rs` | `ExFannkuch.v` (release build: integer overflow wraps; the one thread that is spawned is a call) |
| `examples/stencil/src/{lib,scalar,simd,simd_par}.rs` | `ExStencil.v` (exact index arithmetic; the run-time choice of processor features is part of the target; handling planes at the same time counts as some order) |
| `examples/aobench/src/random.rs` | `ExRandom.v` (the handle and the thread-local cell are left out: draws of one thread in a row) |
| `examples/aobench/src/geometry/*.rs`, `intersection/*.rs` | `ExGeometry.v`, `ExIntersect.v` (the ISPC and image parts of the example are left out) |
| `examples/aobench/src/ambient_occlusion.rs`, `scene/*.rs` | `ExOcclusion.v` |
| `examples/aobench/src/{scalar,vector,tiled,scalar_parallel,vector_parallel,tiled_parallel,image}.rs` (not the PNG encoder and the measurements) | `ExImage.v` |
| `examples/options_pricing/src/{scalar,simd,simd_kernels,simd_par,sum,lib}.rs` (not ISPC and the measurements) | `ExOptions.v` |
| `examples/nbody/src/{scalar,simd,lib}.rs` | `ExNbody.v` |
| `examples/aobench/src/random.rs` (handles and thread-local cells) | `ExRandomCell.v` |
| `examples/mandelbrot/src/{lib,main}.rs` (output; not the parsing of arguments) | `ExMandelbrotOut.v` |
| `codegen/llvm.rs` (intrinsics), `core::arch` | `Llvm.v`, `FloatLane.v`, `Arch.v` (readings, see above) |

Not modelled: performance, code generation quality, `const fn`-ness, trait resolution and
macro hygiene, the build script, NaN payloads and signs of arithmetic results, float
exception flags, the text of float lanes under `{:?}`, fill characters that are not ASCII, the tests, the benchmarks and the drivers of the examples.

Simplifications that apply everywhere: an operation that rustc evaluates in a debug build
with overflow checks is modelled with its release meaning unless the comment says
otherwise; a poison lane makes the whole operation `UB`.

## Assumptions

(What `Print Assumptions` prints for every theorem of `MANIFEST.json`.)

"Closed under the global context" (199 theorems):

`C01_extensional`, `C01_extract`, `C01_mask_extract`, `C01_mask_new`, `C01_mask_replace`,
`C01_mask_splat`, `C01_new`, `C01_replace`, `C01_splat`, `C02_bounded`, `C02_read`,
`C03_round_trip`, `C03_write`, `C04_add`, `C04_assign`, `C04_mul`, `C04_ring`, `C04_sub`,
`C05_assign`, `C05_div`, `C05_division_identity`, `C05_rem`, `C06_div`, `C06_rem`,
`C06_safe_operators_defined_refuted`, `C06_shl`, `C06_shr`, `C07_arithmetic`, `C07_assign`,
`C07_bitwise`, `C07_division`, `C07_division_undefined`, `C07_mask`, `C07_mask_assign`,
`C08_assign`, `C08_bits`, `C08_laws`, `C08_mask_assign`, `C08_masks`, `C09_laws`, `C09_neg`,
`C10_assign`, `C10_shl`, `C10_shr`, `C11_assign`, `C11_long_amount_undefined_refuted`,
`C11_scalar_amounts`, `C12_laws`, `C12_rotates`, `C13_signed_exact`, `C13_signed_nonneg`,
`C13_signed_rotate_refuted`, `C14_laws`, `C14_min_max`, `C15_comparisons`, `C15_complementary`,
`C15_mask_elements`, `C16_equality`, `C16_pointer_sized`, `C17_irreflexive`, `C17_order`,
`C17_transitive`, `C18_select`, `C18_select_not`, `C19_defined`, `C19_obtained`,
`C20_canonical_refuted`, `C20_m128x1`, `C21_msize`, `C21_reductions`, `C22_bitmask`, `C22_fits`,
`C22_masks`, `C22_same_on_all_targets_refuted`, `C23_available`, `C23_compose`, `C23_identity`,
`C23_m16x32_refuted`, `C23_one_vector`, `C23_two_vectors`, `C24_in_range`, `C25_any_index`,
`C25_checked_refuted`, `C25_fallback`, `C25_out_of_range_refuted`, `C25_targets_agree`,
`C26_endian`, `C26_swap_bytes`, `C27_counts`, `C28_additive`, `C28_order`, `C28_reductions`,
`C29_integers`, `C29_masks`, `C30_elements`, `C31_iterators`, `C31_order`, `C32_casts`,
`C32_mask_values`, `C32_shape`, `C33_integers`, `C33_masks`, `C34_arrays`, `C35_bits`,
`C35_masks`, `C36_counted_offsets`, `C36_laws`, `C36_offsets`, `C37_after_offset`,
`C37_difference`, `C37_inverse_of_offset_refuted`, `C37_zero_sized`, `C38_gather`, `C38_local`,
`C39_gather_after_scatter`, `C39_scatter`, `C40_as_array`, `C40_coherent`, `C40_pointers`,
`C40_separates`, `C41_distinct`, `C41_integers`, `C41_integers_distinct`, `C41_masks_distinct`,
`C41_text`, `C42_default`, `C43_comparisons`, `C43_equality`, `C43_null`, `C50_portable`,
`C50_powf`, `C50_unary`, `C52_images`, `C52_portable_refuted`, `C53_scalar_masks`,
`C54_injective`, `C54_into_mask`, `C54_lossless`, `C54_masks`, `C56_pack`, `C57_panics`,
`C58_panics`, `C59_any_point_refuted`, `C59_panics`, `C60_panics`, `C61_any_matrix_refuted`,
`C61_inverse`, `C61_no_panic`, `C62_agree`, `C62_all_counted_refuted`, `C62_max`, `C62_numbers`,
`C62_range`, `C62_result`, `C62_scalar`, `C62_scalar_truncated`, `C62_simd`, `C62_too_large`,
`C63_parallel`, `C63_parallel_panics`, `C63_safe_refuted`, `C63_width`, `C64_alive`,
`C64_unique`, `C68_debug`, `C69_debug`, `C70_debug`, `C70_no_columns`, `C70_test_scene`,
`C71_debug`, `C71_no_columns`, `C71_width`, `C73_scalar_short`, `C75_unknown`,
`C77_any_width_refuted`, `C77_pbm`, `C77_pbm_panics`, `C77_ppm`, `C77_program_stops`,
`C78_scalar`, `C78_vector_refuted`, `C80_array`, `C80_buffer`, `C80_scalar_mask`, `C80_string`,
`C80_writer`, `C81_any_options_refuted`, `C81_distinct`, `C81_integers`, `C81_masks`,
`C81_masks_distinct`, `C81_no_width`, `C81_pointers`, `C83_component`, `C84_belongs`,
`C84_independent_threads_refuted`, `C84_scalar`, `C84_threads_agree`, `C84_vector`.

The standard library axioms `ClassicalDedekindReals.sig_forall_dec`, `ClassicalDedekindReals.sig_not_dec`, `Classical_Prop.classic`, `FunctionalExtensionality.functional_extensionality_dep` (140 theorems; they come with `Coq.Reals`, which Flocq builds on):

`C33_floats`, `C44_arithmetic`, `C44_assign`, `C44_comparisons`, `C44_equality`,
`C44_estimates`, `C44_scalar_arithmetic`, `C44_self_equality`, `C44_sqrt`, `C45_bits`,
`C45_involution`, `C45_negation`, `C46_classification`, `C47_extreme_elements`, `C47_min_max`,
`C48_iterators`, `C48_nan`, `C48_product_portable`, `C48_reductions`, `C48_sum_portable`,
`C48_tree_order_refuted`, `C49_casts`, `C50_llvm`, `C50_mul_add`, `C50_mul_adde`,
`C50_s390x_fused_refuted`, `C50_times_pi`, `C51_f32x2_refuted`, `C51_pairs`, `C55_constants`,
`C55_limits`, `C56_transform`, `C57_empty`, `C57_exact`, `C57_order`, `C57_parallel`,
`C57_parallel_agrees_refuted`, `C58_exact`, `C59_default_region`, `C59_scalar`, `C59_unique`,
`C59_vector`, `C60_equal`, `C60_meaning`, `C61_close`, `C61_exact`, `C61_singular`, `C63_agree`,
`C63_agree_refuted`, `C63_data`, `C63_fmuladd`, `C63_s390x`, `C63_scalar`, `C63_simd`,
`C63_start`, `C63_unique`, `C64_first_lane`, `C64_scalar`, `C64_state`, `C64_thread_rng`,
`C64_vector`, `C65_nearest`, `C65_packet_nearest`, `C65_packet_plane`, `C65_packet_sphere`,
`C65_plane`, `C65_sphere`, `C66_agree_refuted`, `C66_debug_plane`, `C66_debug_sphere`,
`C66_ground`, `C67_basis`, `C67_packet_basis`, `C67_packet_turn`, `C67_packet_turn1`,
`C67_turn`, `C68_random_scalar`, `C68_random_vector`, `C68_range_refuted`, `C68_same_samples`,
`C68_scalar`, `C68_test_scalar`, `C68_test_vector`, `C68_vector`, `C69_random`, `C69_test`,
`C69_tiled`, `C70_program_scalar`, `C70_program_scalar_parallel`, `C70_program_vector`,
`C70_program_vector_parallel`, `C70_random_scene`, `C70_same_directions`, `C70_scalar`,
`C70_scalar_parallel`, `C70_vector`, `C70_vector_parallel`, `C71_parallel`, `C71_program`,
`C71_program_parallel`, `C71_schedules`, `C71_tiled`, `C72_bytes`, `C72_planes`, `C72_program`,
`C72_unique`, `C73_kernels`, `C73_scalar`, `C73_serial`, `C73_serial_fails`, `C73_sums`,
`C74_orders`, `C74_parallel`, `C74_parallel_fails`, `C74_program`, `C74_same_as_serial_refuted`,
`C75_same_bits_refuted`, `C75_scalar`, `C75_scalar_run`, `C75_vector`, `C75_vector_run`,
`C77_program_pbm`, `C77_program_ppm`, `C79_dot`, `C79_iter`, `C79_parallel`, `C79_prices`,
`C79_slices`, `C79_sum`, `C82_iter`, `C82_mul_adde`, `C82_product`, `C82_recpre`, `C82_rsqrte`,
`C83_any_seed_refuted`, `C83_full`, `C83_lanes`, `C83_seed`, `C83_state`, `C83_thread_rng`.

The standard library axioms `ClassicalDedekindReals.sig_forall_dec`, `ClassicalDedekindReals.sig_not_dec`, `FunctionalExtensionality.functional_extensionality_dep` (5 theorems; they come with `Coq.Reals`, which Flocq builds on):

`C73_tree`, `C76_conserved`, `C76_exact`, `C76_solar_system`, `C76_stopped`.

The standard library axioms `ClassicalDedekindReals.sig_forall_dec`, `FunctionalExtensionality.functional_extensionality_dep` (1 theorems; they come with `Coq.Reals`, which Flocq builds on):

`C82_recpre_any_refuted`.
