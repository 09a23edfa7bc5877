{"id": "C01", "title": "Lane access laws", "statement": "For an integer, float or mask vector, `new(..)` / array conversion fixes lane i to the i-th argument, `splat(x)` makes every lane x, `v.replace(i,x).extract(j)` is x when i=j and `v.extract(j)` otherwise, and two vectors of one type with the same extracts are the same vector. `extract(i)`/`replace(i,_)` panic exactly when i >= lanes(), and the unchecked forms agree with the checked ones for every in-range index.", "quantifier": "every vector type (lane count, lane width), every lane content, every usize index, both for reads and updates", "why_tests_cant": "the crate's tests use a handful of constants and two indices per type; the law ranges over all 2^(w*n) contents and all usize indices including those above u32::MAX", "anchors": ["src/api/minimal/iuf.rs: new, lanes, splat, extract, extract_unchecked, replace, replace_unchecked", "src/api/minimal/mask.rs: new, splat, extract, replace"]}
{"id": "C02", "title": "Reading a vector from a slice", "statement": "`from_slice_unaligned(s)` panics exactly when s.len() < lanes(), `from_slice_aligned(s)` panics exactly when s.len() < lanes() or the slice start is not aligned to the vector; otherwise lane i is s[i] for every i < lanes(), and no byte outside the first lanes() elements is read.", "quantifier": "every vector type, endianness, memory contents, slice base address and slice length", "why_tests_cant": "tests use two fixed arrays per type on one endianness; base address, length and memory contents are unbounded", "anchors": ["src/api/slice/from_slice.rs: from_slice_aligned, from_slice_unaligned, from_slice_aligned_unchecked, from_slice_unaligned_unchecked"]}
{"id": "C03", "title": "Writing a vector to a slice", "statement": "`v.write_to_slice_{aligned,unaligned}(s)` panic under exactly the same conditions as the reads and then leave memory unchanged; otherwise afterwards s[i] is lane i for i < lanes() and every byte outside the first lanes() elements (the rest of the slice included) keeps its value. Reading back what was written gives v.", "quantifier": "every vector type, endianness, initial memory, slice base address and length, vector contents", "why_tests_cant": "a test can only look at a few bytes around one buffer; the frame condition is about all other addresses", "anchors": ["src/api/slice/write_to_slice.rs: write_to_slice_aligned, write_to_slice_unaligned, *_unchecked"]}
{"id": "C04", "title": "Integer +, -, * wrap per lane", "statement": "For integer vectors each lane of a+b, a-b, a*b is the mathematical result reduced modulo 2^w into the lane type's range (two's complement for signed), never panics, and lane i depends on lanes i of the operands only. The assigning forms store the same value. Hence the vectors form a commutative ring under + and * with splat(0) and splat(1).", "quantifier": "every integer vector type, signed or unsigned, every operand content", "why_tests_cant": "overflow behaviour has to hold for all pairs of lane values (2^(2w) per lane), tests only use small non-overflowing constants", "anchors": ["src/api/ops/vector_arithmetic.rs: Add, Sub, Mul, *Assign"]}
{"id": "C05", "title": "Integer / and % per lane", "statement": "When no divisor lane is 0 and no lane is MIN / -1, each lane of a/b is the quotient truncated toward zero and each lane of a%b the matching remainder (sign of the dividend), so (a/b)*b + a%b = a.", "quantifier": "every integer vector type, all operand contents satisfying the side condition", "why_tests_cant": "holds for all pairs of lane values; sign combinations and extreme values are not covered by the constant tests", "anchors": ["src/api/ops/vector_arithmetic.rs: Div, Rem, DivAssign, RemAssign"]}
{"id": "C06", "title": "When safe integer operators are defined", "statement": "The safe operators /, %, <<, >> and the rotate methods perform no operand checks, so whether a safe call is defined is decided by the operands alone: division/remainder is defined exactly when no divisor lane is 0 and no signed lane pair is MIN / -1, shifts exactly when every amount lane is in [0, w), and unsigned rotates always. (Defect: the blanket claim 'safe operators never have undefined behaviour' is false; witnesses are to be exhibited.)", "quantifier": "all safe calls of these operators on all operands", "why_tests_cant": "the offending operands are exactly the ones tests avoid (zero divisors, over-long shifts, negative rotate amounts)", "anchors": ["src/api/ops/vector_arithmetic.rs: div, rem", "src/api/ops/vector_shifts.rs: shl, shr", "src/api/ops/vector_rotates.rs"]}
{"id": "C07", "title": "Scalar operand forms mean splat", "statement": "For every binary operator and every integer/float/mask vector v and scalar x, `v op x` equals `v op splat(x)`, `x op v` equals `splat(x) op v`, and the assigning forms agree with both.", "quantifier": "every vector type, operator, scalar and vector content", "why_tests_cant": "the claim ranges over all scalars, vectors and both operand positions", "anchors": ["src/api/ops/scalar_arithmetic.rs", "src/api/ops/scalar_bitwise.rs", "src/api/ops/scalar_mask_bitwise.rs"]}
{"id": "C08", "title": "Bitwise operators act on every bit independently", "statement": "Bit k of lane i of a&b, a|b, a^b, !a is the boolean and/or/xor/not of bit k of the operand lanes; so De Morgan's laws, !!a = a and a^a = 0 hold on integers, and on masks the operators are exactly boolean and/or/xor/not of the lanes.", "quantifier": "every integer and mask vector type, all contents, all bit positions", "why_tests_cant": "all bit patterns of all lanes; `!` is implemented indirectly as xor with an all-ones splat, so is only right if that constant is right for every width", "anchors": ["src/api/ops/vector_bitwise.rs: not, bitxor, bitand, bitor", "src/api/ops/vector_mask_bitwise.rs"]}
{"id": "C09", "title": "Negation of signed integer vectors", "statement": "-v has in each lane the wrapped negation of the lane (MIN stays MIN), -v + v = splat(0), and -(-v) = v.", "quantifier": "every signed vector type, all contents", "why_tests_cant": "negation is computed as a multiplication by -1; equality with negation must hold for every lane value including MIN", "anchors": ["src/api/ops/vector_neg.rs: neg"]}
{"id": "C10", "title": "Shifts", "statement": "When every amount lane is smaller than the lane width w, a<<n is a*2^n modulo 2^w and a>>n is floor(a / 2^n) (arithmetic on signed lanes). Shifting by a u32 scalar smaller than w means the same with that amount in every lane.", "quantifier": "every integer vector type, all contents, all in-range amounts", "why_tests_cant": "all (value, amount) pairs for all lane widths", "anchors": ["src/api/ops/vector_shifts.rs", "src/api/ops/scalar_shifts.rs"]}
{"id": "C11", "title": "Scalar shift amounts", "statement": "`v << k` / `v >> k` with k: u32 act as a shift by (k mod 2^w), the amount converted to the lane type, and are defined exactly when that converted amount is below w. So they shift by k exactly for k < w, and (defect) for 8- and 16-bit lanes amounts >= w such as k = 2^w are silently accepted as a different shift.", "quantifier": "every u32 amount, every integer vector type", "why_tests_cant": "tests only use amounts below the lane width", "anchors": ["src/api/ops/scalar_shifts.rs: shl, shr"]}
{"id": "C12", "title": "Rotates of unsigned vectors", "statement": "For unsigned vectors `rotate_left(n)`/`rotate_right(n)` move bit k of each lane to position (k + n) mod w / (k - n) mod w for every n (no panic, no over-long shift even for n >= w); they are mutually inverse and rotating by w is the identity.", "quantifier": "every unsigned vector type, every content, every per-lane amount", "why_tests_cant": "all (value, amount) pairs; amounts of 0 and multiples of w need the double modulo", "anchors": ["src/api/ops/vector_rotates.rs: rotate_left, rotate_right"]}
{"id": "C13", "title": "Rotates of signed vectors", "statement": "For signed vectors `rotate_left`/`rotate_right` have the documented bit-rotation meaning on every lane whose value and amount are non-negative. (Defect: for negative lanes sign bits are smeared in, and negative amounts not divisible by w give an over-long shift; witnesses are to be exhibited.)", "quantifier": "every signed vector type, content and amount", "why_tests_cant": "tests rotate only small positive constants", "anchors": ["src/api/ops/vector_rotates.rs: rotate_left, rotate_right", "src/api.rs: impl_i"]}
{"id": "C14", "title": "Vertical integer min/max", "statement": "Each lane of a.min(b)/a.max(b) is the smaller/larger of the two lanes in the lane type's order; so min and max are idempotent, commutative, associative and absorb each other.", "quantifier": "every integer vector type, all contents", "why_tests_cant": "all pairs of lane values, both signednesses", "anchors": ["src/api/ops/vector_int_min_max.rs: min, max"]}
{"id": "C15", "title": "Vertical comparisons produce exact masks", "statement": "a.eq/ne/lt/le/gt/ge(b) return a mask whose lane i is true exactly when the relation holds between lanes i (signed/unsigned order by type; false < true on masks), and each result lane is either all zeros or all ones; lt and ge (gt and le) are complementary on integers and masks.", "quantifier": "every integer and mask vector type, all contents", "why_tests_cant": "all pairs of lane values; for masks the code swaps the underlying signed comparison, which is right only on canonical lanes", "anchors": ["src/api/cmp/vertical.rs", "src/masks.rs: PartialOrd"]}
{"id": "C16", "title": "== and != on vectors", "statement": "a == b is true exactly when all corresponding lanes are equal, a != b exactly when some lane differs; so != is the negation of ==. For integers and masks == is an equivalence relation whose classes are single vectors. The wrapper returned by lex_ord has the same ==.", "quantifier": "every integer and mask vector type, all contents, all target-specific reductions", "why_tests_cant": "relies on the mask reduction of every target being exact for all masks", "anchors": ["src/api/cmp/partial_eq.rs", "src/api/cmp/eq.rs", "src/codegen/reductions/mask.rs"]}
{"id": "C17", "title": "Lexicographic order is a total order", "statement": "lex_ord()/partial_lex_ord() compare vectors like arrays: the first differing lane decides. partial_cmp, <, <=, >, >= and cmp agree with each other and with ==; the order is total, antisymmetric and transitive; cmp never reaches its unreachable branch on integer and mask vectors.", "quantifier": "every integer and mask vector type, all pairs/triples of contents", "why_tests_cant": "totality/transitivity quantify over all triples of vectors; the unreachable branch would be undefined behaviour", "anchors": ["src/api/cmp/partial_ord.rs", "src/api/cmp/ord.rs", "src/lib.rs: LexicographicallyOrdered"]}
{"id": "C18", "title": "select picks lanes", "statement": "m.select(a,b) has lane i of a where mask lane i is true and lane i of b where it is false, for masks of any lane width with the same lane count; select with !m swaps the arms.", "quantifier": "every mask type, every result type with equal lane count, all contents", "why_tests_cant": "all masks and all contents", "anchors": ["src/api/select.rs: select"]}
{"id": "C19", "title": "Mask lanes stay canonical", "statement": "Every mask vector obtainable through the safe API, casts from integers to m128x1 excepted (C20), holds in each lane either all-zero or all-one bits, so that select, all and any, which are undefined on other lanes, are defined on it.", "quantifier": "every finite sequence of safe operations that yields a mask (closure by induction), every mask type", "why_tests_cant": "an invariant over all API call sequences; no finite test set covers it", "anchors": ["src/api/minimal/mask.rs", "src/api/ops/vector_mask_bitwise.rs", "src/api/cmp/vertical.rs", "src/api/cast/macros.rs: impl_from_cast_mask_", "src/api/from/from_vector.rs", "src/api/into_bits.rs", "src/api/shuffle.rs", "src/api/shuffle1_dyn.rs"]}
{"id": "C20", "title": "m128x1 from a 128-bit integer cast", "statement": "`m128x1::from_cast(x)` for x: i128x1/u128x1 yields a canonical mask exactly when x is 0 or all-ones. (Defect: unlike every other mask-from-integer cast it is a plain bit copy; e.g. from x = 1 safe code obtains a mask m with both m and !m true at lane 0, and all()/select have undefined behaviour.)", "quantifier": "all i128/u128 lane values", "why_tests_cant": "the only test casts 0/1-like constants and does not inspect negation or select", "anchors": ["src/api/cast/v128.rs: impl_from_cast!(m128x1: ..)"]}
{"id": "C21", "title": "all / any / none on every target", "statement": "m.all() is true exactly when every lane is true, m.any() exactly when some lane is, m.none() exactly when none is, whichever target architecture, features, endianness and pointer width select the implementation.", "quantifier": "all mask types x all target configurations x all masks", "why_tests_cant": "each configuration needs its own hardware and each mask type has 2^n masks (2^64 for m8x64)", "anchors": ["src/codegen/reductions/mask.rs", "src/codegen/reductions/mask/fallback_impl.rs", "src/codegen/reductions/mask/x86.rs", "src/codegen/reductions/mask/aarch64.rs", "src/codegen/reductions/mask/arm.rs", "src/api/reductions/mask.rs"]}
{"id": "C22", "title": "bitmask", "statement": "On little-endian targets bit i of v.bitmask() is the most significant bit of lane i (for masks: the truth value of lane i); on big-endian targets, where the code generator packs lane 0 into the top bit, it is that of lane lanes()-1-i; bits at and above lanes() are 0. On both, m.bitmask() == 0 iff m.none() and it equals 2^lanes - 1 iff m.all().", "quantifier": "every integer/mask vector type with a bitmask method, all contents", "why_tests_cant": "2^n masks and all lane contents", "anchors": ["src/api/bitmask.rs: bitmask"]}
{"id": "C23", "title": "shuffle! with constant indices", "statement": "shuffle!(a, b, [i0..]) has in lane k lane ik of the concatenation a++b; the one-operand form shuffles a++a, so an index i with lanes() <= i < 2*lanes() is accepted and means lane i - lanes(); the result has as many lanes as indices; indices of 2*lanes() or more do not compile. Every type of two or more lanes but m16x32 can be produced. Composition of one-operand shuffles is the shuffle by the composed indices, and shuffling by the identity is the identity.", "quantifier": "all vector types, contents and in-range index lists of every supported length", "why_tests_cant": "all index lists (n^n and more) and contents", "anchors": ["src/api/shuffle.rs: shuffle!", "src/codegen/shuffle.rs", "src/codegen/llvm.rs: __shuffle_vector*"]}
{"id": "C24", "title": "shuffle1_dyn with in-range indices", "statement": "If every index lane is < lanes(), lane k of v.shuffle1_dyn(ix) is lane ix[k] of v, on every target implementation (byte shuffles, AVX permutes, table lookups, per-lane fallback, transmute wrappers for signed, float, mask and pointer vectors) and both endiannesses.", "quantifier": "all vector types, targets, contents and in-range index vectors", "why_tests_cant": "n^n index vectors per type and several hardware-specific code paths", "anchors": ["src/codegen/shuffle1_dyn.rs", "src/api/shuffle1_dyn.rs"]}
{"id": "C25", "title": "Target dependence of shuffle1_dyn", "statement": "Two targets agree on v.shuffle1_dyn(ix) as soon as all index lanes are in range. With an out-of-range index the call panics or returns lanes that are 0 or lanes of v, and is never undefined; which of these happens depends on the target. Shapes without a dedicated implementation panic exactly if an index, converted to usize, is out of range. (Defects: safe code observes the target, and on targets that check, u16x8 and wider lanes let some out-of-range indices through because the scaled byte index wraps.)", "quantifier": "all index vectors including out-of-range ones, all pairs of targets", "why_tests_cant": "tests only use in-range indices and one target", "anchors": ["src/codegen/shuffle1_dyn.rs"]}
{"id": "C26", "title": "swap_bytes and endian conversions", "statement": "swap_bytes reverses the bytes of the whole vector's memory image (so lanes are reversed and every lane is byte-swapped) on both endiannesses; it is an involution; from_le(to_le(v)) = from_be(to_be(v)) = v; on a little-endian target to_le is the identity and to_be swaps, on big-endian the converse.", "quantifier": "every integer vector type in the macro tables, both endiannesses, all contents", "why_tests_cant": "index tables of up to 64 entries per width, all contents, two endiannesses", "anchors": ["src/codegen/swap_bytes.rs", "src/api/swap_bytes.rs: swap_bytes, to_le, to_be, from_le, from_be"]}
{"id": "C27", "title": "Bit counting", "statement": "Each lane of count_ones/count_zeros/leading_zeros/trailing_zeros is the number of one bits / zero bits / leading zero bits / trailing zero bits of the lane's bit pattern, for signed lanes too and with w for the zero lane (leading/trailing); the result is independent of the target-specific implementation.", "quantifier": "every integer vector type, all contents, all target implementations", "why_tests_cant": "all bit patterns of each width", "anchors": ["src/codegen/bit_manip.rs", "src/api/bit_manip.rs"]}
{"id": "C28", "title": "wrapping_sum and wrapping_product", "statement": "wrapping_sum/wrapping_product return the sum/product of all lanes reduced modulo 2^w into the lane type; the result does not depend on the order of lanes or on which target implementation runs, and it is additive: (a+b).wrapping_sum() = a.wrapping_sum() + b.wrapping_sum() wrapped.", "quantifier": "every integer vector type, all contents, all permutations of lanes, both implementations", "why_tests_cant": "all contents; overflow combinations", "anchors": ["src/api/reductions/integer_arithmetic.rs: wrapping_sum, wrapping_product"]}
{"id": "C29", "title": "and / or / xor reductions", "statement": "and()/or()/xor() combine all lanes bit by bit (for masks: all, any, parity of true lanes), independent of the target implementation.", "quantifier": "every integer and mask vector type, all contents, both implementations", "why_tests_cant": "all contents", "anchors": ["src/api/reductions/bitwise.rs: and, or, xor"]}
{"id": "C30", "title": "min_element / max_element of integer vectors", "statement": "max_element() is a lane of the vector that is >= every lane, min_element() a lane <= every lane, in the lane type's order, on every target implementation.", "quantifier": "every integer vector type, all contents, both implementations", "why_tests_cant": "all contents, both signednesses", "anchors": ["src/api/reductions/min_max.rs: max_element, min_element"]}
{"id": "C31", "title": "Iterator Sum and Product of vectors", "statement": "Summing (multiplying) an iterator of integer vectors by value or by reference gives in each lane the wrapped sum (product) of that lane over all items, splat(0) (splat(1)) for an empty iterator, independent of the order of items.", "quantifier": "all finite iterators (any length), all contents, every integer vector type", "why_tests_cant": "unbounded iterator lengths", "anchors": ["src/api/reductions/integer_arithmetic.rs: Sum, Product"]}
{"id": "C32", "title": "Integer casts", "statement": "x.cast() between integer vectors gives in every lane the Rust `as` conversion: the unique value of the destination type congruent to the source lane's value modulo 2^(destination width); widening keeps the value whenever it is representable; casts from masks give -1/0 (signed) or all-ones/0 (unsigned) for true/false; casts to masks give lane != 0.", "quantifier": "every pair in the cast tables (except the m128x1 pair of C20), all contents", "why_tests_cant": "all lane values for every ordered pair of types", "anchors": ["src/api/cast.rs: Cast, FromCast", "src/api/cast/macros.rs", "src/api/cast/v16.rs .. v512.rs"]}
{"id": "C33", "title": "From/Into between vectors is lossless", "statement": "Every `From` conversion between vector types that the crate offers keeps the mathematical value of every lane (truth value for masks), lane count included, and hence is injective.", "quantifier": "every (source,target) pair in the From tables of v16..v512, all contents", "why_tests_cant": "all lane values for all pairs of types", "anchors": ["src/api/from/from_vector.rs", "src/v16.rs .. src/v512.rs: From lists"]}
{"id": "C34", "title": "Array conversions round-trip", "statement": "From<[T;N]> and Into<[T;N]> are mutually inverse and keep lane order: lane i of the vector is element i of the array, on both endiannesses.", "quantifier": "every vector type, all contents, both endiannesses", "why_tests_cant": "all contents", "anchors": ["src/api/from/from_array.rs"]}
{"id": "C35", "title": "into_bits / from_bits re-interpret memory without loss", "statement": "A FromBits/IntoBits conversion keeps the byte image of the vector, exists only between types of equal size, and converting there and back is the identity; a mask obtained from a wider mask is again a valid mask whose lanes repeat the source lane's truth value.", "quantifier": "every pair of the into_bits tables, both endiannesses, all contents", "why_tests_cant": "all bit patterns for several hundred pairs", "anchors": ["src/api/into_bits.rs", "src/api/into_bits/macros.rs", "src/api/into_bits/v16.rs .. v512.rs"]}
{"id": "C36", "title": "Pointer vector offset arithmetic", "statement": "Lane i of p.wrapping_offset(c) is the address p_i + c_i*size_of::<T>() modulo 2^pointer-width; wrapping_add/wrapping_sub are the offsets by +c/-c; offsets compose additively and wrapping_sub undoes wrapping_add. offset/add/sub agree with them.", "quantifier": "all element sizes, pointer widths, addresses and counts", "why_tests_cant": "all addresses and counts; wrap-around at the end of the address space", "anchors": ["src/api/ptr/.. src/api/minimal/ptr.rs: offset, wrapping_offset, add, sub, wrapping_add, wrapping_sub"]}
{"id": "C37", "title": "wrapping_offset_from / offset_from", "statement": "p.wrapping_offset(c).wrapping_offset_from(p) equals -c lane by lane whenever c*size does not overflow. (Defect: the documentation promises c, the inverse of offset; the operands of the subtraction are swapped; and for zero-sized T the division is undefined.)", "quantifier": "all element sizes, addresses and counts", "why_tests_cant": "no test calls it", "anchors": ["src/api/minimal/ptr.rs: offset_from, wrapping_offset_from"]}
{"id": "C38", "title": "Gather", "statement": "ptrs.read(mask, value) returns in lane i the element stored at ptrs[i] when mask lane i is true and value[i] otherwise; memory is not modified and no address of a disabled lane is accessed (so disabled lanes may hold any pointer).", "quantifier": "all memories, pointer vectors, masks and values", "why_tests_cant": "all memories and all mask/pointer combinations", "anchors": ["src/api/ptr/gather_scatter.rs: read"]}
{"id": "C39", "title": "Scatter", "statement": "ptrs.write(mask, values) stores values[i] at ptrs[i] for every enabled lane, later lanes winning where addresses coincide, changes no other byte and touches no address of a disabled lane; a gather with the same pointers and mask then returns the last value stored at each address.", "quantifier": "all memories, pointer vectors (aliasing included), masks and values", "why_tests_cant": "all aliasing patterns and memories", "anchors": ["src/api/ptr/gather_scatter.rs: write"]}
{"id": "C40", "title": "Eq and Hash are coherent", "statement": "Hashing a vector feeds the hasher exactly what hashing the array of its lanes feeds it, so a == b implies equal hashes, and vectors that differ feed different data.", "quantifier": "every integer (and pointer) vector type, any hasher, all contents", "why_tests_cant": "all pairs of equal vectors and any hasher implementation", "anchors": ["src/api/hash.rs", "src/api/minimal/ptr.rs: Hash"]}
{"id": "C41", "title": "Formatting", "statement": "Debug/Binary/Octal/LowerHex/UpperHex output is the type name, '(', the lanes' own formatting in lane order separated by ', ', ')'. For integer types Debug writes each lane's number in decimal and the others its bits in base 2, 8 or 16, without leading zeros. Distinct vectors of one integer type have distinct output.", "quantifier": "every integer vector type, every lane content", "why_tests_cant": "all contents (injectivity is a statement about all pairs)", "anchors": ["src/api/fmt/debug.rs", "src/api/fmt/binary.rs", "src/api/fmt/octal.rs", "src/api/fmt/lower_hex.rs", "src/api/fmt/upper_hex.rs"]}
{"id": "C42", "title": "Default values", "statement": "Default::default() is the vector whose lanes are all the element default: 0, 0.0, false or null.", "quantifier": "every vector type (any lane count and width)", "why_tests_cant": "one statement for every type of the family", "anchors": ["src/api/default.rs", "src/api/minimal/ptr.rs: Default"]}
{"id": "C43", "title": "Pointer comparisons and null", "statement": "Comparisons on pointer vectors compare addresses as unsigned integers lane by lane; is_null() is true exactly in lanes holding address 0; null() is null in every lane; == / != agree with lane-wise address equality.", "quantifier": "all pointer widths and addresses, both pointer kinds", "why_tests_cant": "all address pairs, including those with the top bit set", "anchors": ["src/api/minimal/ptr.rs: eq, ne, lt, le, gt, ge, is_null, PartialEq"]}
{"id": "C44", "title": "IEEE float arithmetic and comparison per lane", "statement": "Float vector +, -, *, / return in each lane the correctly rounded (nearest-even) result of the exact operation; eq/ne/lt/le/gt/ge follow IEEE order (NaN unordered, -0 = +0), so v == v exactly when no lane is NaN and != is the negation of ==.", "quantifier": "f32 and f64 vectors of any lane count, all bit patterns including subnormals, infinities and NaNs", "why_tests_cant": "2^64 / 2^128 operand pairs per lane", "anchors": ["src/api/ops/vector_arithmetic.rs", "src/api/cmp/vertical.rs", "src/api.rs: impl_f"]}
{"id": "C45", "title": "Float negation", "statement": "-v flips the sign of every non-NaN lane (zeros and infinities included), leaving magnitude unchanged; it is computed as -1.0 * v.", "quantifier": "all non-NaN lanes of f32/f64 vectors", "why_tests_cant": "all bit patterns", "anchors": ["src/api/ops/vector_neg.rs: neg"]}
{"id": "C46", "title": "Float classification masks", "statement": "is_nan, is_infinite and is_finite are canonical masks that classify each lane by its IEEE class; exactly one of nan / infinite / finite holds per lane.", "quantifier": "all bit patterns of f32/f64 lanes", "why_tests_cant": "all bit patterns including every NaN payload", "anchors": ["src/api/math/float.rs: is_nan, is_infinite, is_finite"]}
{"id": "C47", "title": "Float min/max ignore NaN", "statement": "a.min(b)/a.max(b) per lane: if exactly one operand lane is NaN the other one is returned, otherwise the smaller/larger; min_element/max_element return a lane that is not NaN unless all are, bounding all non-NaN lanes.", "quantifier": "all bit patterns, all lane counts", "why_tests_cant": "all combinations of NaN positions and values", "anchors": ["src/api/ops/vector_float_min_max.rs", "src/api/reductions/min_max.rs"]}
{"id": "C48", "title": "Float sum/product reductions", "statement": "sum()/product() are the sequential reductions ((x0 op x1) op x2) .. in lane order, preceded by +0.0 / 1.0 except on AArch64; product gives the same result on all targets, sum too unless every lane is -0.0. (Defect: the documentation promises a tree reduction (x0+x1)+(x2+x3).., which differs on concrete vectors; and AArch64 differs from the other targets on all -0.0.)", "quantifier": "all float vectors, all targets", "why_tests_cant": "tests use values for which rounding does not occur", "anchors": ["src/api/reductions/float_arithmetic.rs: sum, product"]}
{"id": "C49", "title": "Float casts", "statement": "int->float casts round to nearest-even; float->int casts truncate toward zero for in-range lanes; f32->f64 is exact (also as From); f64->f32 rounds to nearest-even.", "quantifier": "all lane contents", "why_tests_cant": "2^32..2^64 lane values per pair of types", "anchors": ["src/api/cast/macros.rs: impl_from_cast_", "src/api/from/from_vector.rs"]}
{"id": "C50", "title": "Lane-wise math functions do not depend on how a vector is split", "statement": "sqrt, sin, cos, exp, ln, powf, tanh, abs, mul_add, ... on a vector give in lane i the scalar function of lanes i of the arguments, whether the back end works on whole vectors, halves, quarters, doubled-up vectors or scalars.", "quantifier": "all float vector types, all target/feature tables, any lane-wise back end, all contents", "why_tests_cant": "several hardware/feature specific code paths, all contents", "anchors": ["src/codegen/math/float/macros.rs", "src/codegen/math/float/*.rs", "src/api/math/float/*.rs"]}
{"id": "C51", "title": "sin_cos_pi returns the pair (sin, cos)", "statement": "v.sin_cos_pi() returns (sin(pi v), cos(pi v)) lane by lane on every back-end table entry except f32x2 with the sleef back end. (Defect: there the doubled-up wrapper returns the two halves of the sine vector, the second of which is computed from uninitialised lanes.)", "quantifier": "all float vector types and back ends, all contents", "why_tests_cant": "needs the optional back end and hardware features", "anchors": ["src/codegen/math/float/sin_cos_pi.rs"]}
{"id": "C52", "title": "Serialised bytes of to_le / to_be", "statement": "The memory image of v.to_le() on a big-endian target is that of the vector with its lanes in reverse order on a little-endian one; so images agree across endiannesses exactly for vectors that are palindromic in their lanes. (Defect: unlike the scalar to_le the result is not a portable serialisation for vectors of more than one lane; witness to be exhibited.)", "quantifier": "all vector contents, both endiannesses", "why_tests_cant": "needs two machines of different endianness", "anchors": ["src/api/swap_bytes.rs: to_le, to_be", "src/codegen/swap_bytes.rs"]}
{"id": "C53", "title": "Scalar masks behave like bool", "statement": "For the scalar mask types m8..m128 and msize, new(c).test() is c, the default tests false, ==, !=, <, <=, >, >=, cmp and partial_cmp agree with those of bool (false < true), and hashing feeds the same boolean.", "quantifier": "every mask width, both booleans on each side", "why_tests_cant": "one statement for every width; no test covers the ordering of the scalar masks", "anchors": ["src/masks.rs: impl_mask_ty!"]}
{"id": "C54", "title": "Conversions with vendor types are lossless and keep masks sound", "statement": "With the into_bits feature, from_bits/into_bits between portable vectors and the vendors' types (__m128i, int8x16_t, vector_bool_int, ...) keeps the size and every byte in memory; different values stay different, and where both directions exist they undo each other. No sequence of such conversions, through any portable and vendor types, turns a value into a mask with a lane that is neither all zeros nor all ones: only masks and AltiVec boolean vectors with elements at least as wide can be turned into a mask.", "quantifier": "all entries of the conversion tables of every architecture, all values, all byte orders and pointer widths, all finite sequences of conversions", "why_tests_cant": "The tests convert one zeroed value per pair; a table entry that lets an arbitrary vendor value become a mask type-checks and passes them, and shows up only as undefined behaviour in select or all.", "anchors": ["src/api/into_bits/arch_specific.rs", "src/api/into_bits/macros.rs", "src/api/into_bits.rs"]}
{"id": "C55", "title": "The constants of float vectors are what they are called", "statement": "Every lane of MAX, MIN, MIN_POSITIVE and EPSILON of a float vector type is the largest finite number, the smallest finite number, the smallest positive normal number and the distance from 1 to the next larger number of the lane format; INFINITY, NEG_INFINITY and NAN are those data. Every lane of PI, FRAC_PI_2/3/4/6/8, FRAC_1_PI, FRAC_2_PI, FRAC_2_SQRT_PI, SQRT_2, FRAC_1_SQRT_2, E, LOG2_E, LOG10_E, LN_2 and LN_10 is the real number of that name, rounded to nearest.", "quantifier": "all float vector types (lane widths 32 and 64, every lane count), all lanes, all numbers of the format the limits are compared with", "why_tests_cant": "that a constant is the nearest representable number to an irrational one, or bounds every number of the format, is a statement about real numbers and about 2^64 patterns", "anchors": ["src/api/math/float/consts.rs: impl_float_consts", "src/api/math/float.rs"]}
{"id": "C56", "title": "The packed triangle transform computes what the scalar one does", "statement": "In the triangle_xform example, packing panics unless given exactly eight triangles. Packing eight triangles and unpacking them gives them back. Packing, transforming by a 4x3 matrix and unpacking gives bit for bit the triangles the scalar transform gives: every coordinate is a*x + b*y + c*z + d, three products and three sums each rounded once from left to right.", "quantifier": "all matrices and triangles of f32 patterns (NaN, infinities and subnormals included), all numbers of triangles", "why_tests_cant": "agreement of a transposed vector program with a scalar program on every one of 2^32 patterns in each of 84 inputs", "anchors": ["examples/triangle_xform/src/simd.rs: pack, unpack, transform", "examples/triangle_xform/src/scalar.rs: transform"]}
{"id": "C57", "title": "Vertical, horizontal and parallel slice sums", "statement": "In the slice_sum example, the vertical and horizontal sums panic exactly when the length is no multiple of eight, and otherwise give the exact total whenever the elements are multiples of one unit and the total of their absolute values is at most 2^24 units. For any elements the vertical sum adds each of the eight columns in order and then the column sums; the horizontal sum adds groups of eight in order and then the group sums. The parallel sum gives, whatever the schedule, the exact total of the elements it looks at. (Defect: if the slice is not aligned to the vector it leaves out the last 8 - i elements, where i is the index of the first aligned one; on an empty slice it panics while the other two return 0.)", "quantifier": "all slices in memory, all element values, all targets, all alignments of the vector type, all schedules of the parallel sum", "why_tests_cant": "schedules and allocation addresses are not under the control of a test, and the rounding claims range over all elements", "anchors": ["examples/slice_sum/src/main.rs: sum_ver, sum_hor, sum_ver_par"]}
{"id": "C58", "title": "Vector and scalar dot product", "statement": "In the dot_product example, both versions panic on slices of different lengths and the vector version panics if the length is no multiple of four. Otherwise both give the exact dot product whenever the elements are multiples of two units and the absolute products add up to at most 2^24 product units.", "quantifier": "all slices in memory, all element values on a grid, all targets", "why_tests_cant": "the two versions add in different orders, so agreement depends on exactness for every length and content", "anchors": ["examples/dot_product/src/scalar.rs: dot_prod", "examples/dot_product/src/simd.rs: dot_prod"]}
{"id": "C59", "title": "Vector and scalar Mandelbrot images agree", "statement": "In the mandelbrot example, the scalar counter returns, for any point, the number of iterations of z -> z^2 + c (every operation rounded to f64) before the squared norm first exceeds 4, at most 50. The vector counter, which goes on iterating lanes that have escaped and adds 1 or 0 by a mask, returns the same numbers for any eight points with |c|^2 <= 3.5: a lane that has left the disc never counts again. The two images of the default region are therefore equal for every width that is a multiple of eight, with the escape time of grid point (i, j) at index i*width + j. The vector version panics on other widths, both panic on width 0. (Defect: the scalar test is \"norm > 4\" and the vector test \"norm <= 4\", so on NaN the scalar counter gives 50 and the vector counter 0.)", "quantifier": "all f64 points (scalar), all vectors of points near the origin, all image sizes below 2^53, all targets", "why_tests_cant": "agreement depends on lanes never re-entering the disc after escaping, under rounding and overflow to infinities and NaN, for every point", "anchors": ["examples/mandelbrot/src/scalar_par.rs: diverged, MandelbrotIter, generate", "examples/mandelbrot/src/simd_par.rs: undiverged, MandelbrotIter, generate", "examples/mandelbrot/src/lib.rs: DEFAULT_REGION, THRESHOLD, ITER_LIMIT"]}
{"id": "C60", "title": "Vector and scalar spectral norms agree", "statement": "In the spectral_norm example the vector and scalar versions return the same bits for every even size on every target, although their horizontal sums start from different zeros and AArch64 adds in a different way; both panic on odd sizes. Up to size 2^25 on 64-bit targets and 2^15 on 32-bit targets (where the entries of the matrix are exact) the result is that of ten double steps of the power iteration with each operation correctly rounded, in the order the scalar code has.", "quantifier": "all sizes, all targets", "why_tests_cant": "bit equality has to hold for every size, and depends on no partial sum ever being -0.0", "anchors": ["examples/spectral_norm/src/lib.rs: A", "examples/spectral_norm/src/scalar.rs: spectral_norm, mult, dot", "examples/spectral_norm/src/simd.rs: spectral_norm, mult_Av, mult_Atv, dot"]}
{"id": "C61", "title": "Matrix inverses are right, and singular matrices are recognised", "statement": "In the matrix_inverse example, for every 4x4 matrix that is a power of two (2^-12 to 2^12) times an integer matrix with entries up to 20 in absolute value, the scalar and the vector version return None exactly when the determinant is zero; otherwise each returned entry is that of the mathematical inverse, up to a relative error of 2^-22 (scalar) or 2^-21 (vector, whose reciprocal has a Newton step), and with no error when the determinant is a power of two. The vector version never panics. For arbitrary floats the two versions disagree about which matrices are invertible.", "quantifier": "all such matrices and scales, all targets; no-panic for all f32 matrices", "why_tests_cant": "the tests try three matrices; the shuffles and signs of sixteen cofactors must be right for all entries and the rounding error holds for all inputs", "anchors": ["examples/matrix_inverse/src/scalar.rs: inv4x4", "examples/matrix_inverse/src/simd.rs: inv4x4", "examples/matrix_inverse/src/lib.rs: Matrix4x4"]}
{"id": "C62", "title": "Fannkuch counts the flips of every permutation, in both versions", "statement": "In the fannkuch_redux example, the vector version for up to 16 elements, on every target, and the scalar version for up to 12 elements terminate and return the alternating sum (wrapped to i32) and the maximum of the flip counts of all n! permutations in the factorial numbering, so they agree; each permutation is counted exactly once. The scalar worker returns the sum and maximum of any sub-range of permutation numbers, so the work can be split. Larger sizes (17 for the vector version, 16 for the scalar one) panic. For 13 and 14 elements, which the command line accepts, the release build of the scalar version looks only at the first n! mod 2^32 permutations.", "quantifier": "all sizes, all targets, all ranges of permutation numbers; termination with no bound on steps", "why_tests_cant": "the tests run one size (7); the incremental rotations, the dynamic shuffles, the pairing of permutations and the signs must be right for every size and every permutation", "anchors": ["examples/fannkuch_redux/src/scalar.rs: fannkuch_redux, work, Perm, next_permutation", "examples/fannkuch_redux/src/simd.rs: fannkuch_redux, State::tk, State::popmasks", "examples/fannkuch_redux/src/main.rs: main"]}
{"id": "C63", "title": "The stencil example computes the wave it says, in all three versions", "statement": "In the stencil example, for a box inside the grid with at least three planes below and above, the scalar version performs t1 - t0 time steps of the scheme next - 2 cur + prev = vsq * (c0 cur + c1 S1 + c2 S2 + c3 S3), where S_i is the sum of the six cells at distance i, changing exactly the cells of the box and alternating between the two arrays. The vector version then has no undefined behaviour and computes the same wave with products and sums rounded as mul_adde does, so that it gives the numbers of the scalar version wherever mul_adde rounds twice; a box whose width is no multiple of eight makes it panic. The parallel version gives the result of the vector version bit by bit for every order of the planes. Where mul_adde is fused the numbers can differ from the scalar version. The safe function x8 reads outside of the arrays for a box too close to the bottom, and for a backwards range of planes.", "quantifier": "all grids, boxes, data, coefficients, numbers of time steps, targets and orders in which the planes are handled", "why_tests_cant": "the tests compare the versions on one data set of 128^3 cells whose values hardly round", "anchors": ["examples/stencil/src/scalar.rs: step, scalar", "examples/stencil/src/simd.rs: step_x8, x8_impl, x8", "examples/stencil/src/simd_par.rs: x8_par_impl, x8_par", "examples/stencil/src/lib.rs: Data"]}
{"id": "C64", "title": "The random number generators of aobench draw LFSR113, lane by lane", "statement": "In the ambient occlusion example, the j-th number that the scalar generator draws is exactly the f32 k / 2^23, hence in [0, 1), where k is the low 23 bits of the j-th number of L'Ecuyer's LFSR113: the exclusive or of four Tausworthe generators, seeded with the seed itself, the seed xor a constant, with its halves swapped and with its bytes reversed. Every lane of the vector generator, with four or eight lanes, draws bit by bit what the scalar generator draws that is seeded with that lane, without panic or undefined behaviour. A component seeded below its threshold (2, 8, 16, 128) is zero forever and one seeded above never gets below; so the scalar thread_rng, seeded with 1, uses three of the four components, and the first lane of the vector thread_rng, seeded with 0, uses only one: each of its numbers is the fraction of four times the number before but for the last two bits.", "quantifier": "all seeds, all states, both vector widths, any number of draws and every lane", "why_tests_cant": "a test draws a few numbers from one seed; the long-run behaviour of a component and the relation to LFSR113 concern all draws", "anchors": ["examples/aobench/src/random.rs: scalar::RngT, vector::RngT, thread_rng", "examples/aobench/src/geometry/mod.rs: f32xN, u32xN, IncrV"]}
{"id": "C65", "title": "Intersecting rays with planes and spheres finds the nearest point, for single rays and packets", "statement": "In the ambient occlusion example, intersecting a ray with a plane or a sphere keeps the point known so far unless the ray meets the object at a positive parameter that is smaller: then the result has that parameter, the point at it, the normal vector there (of length one up to rounding for a sphere) and the hit flag. The parameters are the f32 roundings of -(o.n - p.n)/(d.n) on a plane, if |d.n| is at least 1e-17, and of -b - sqrt(b^2 - c) on a sphere, if b^2 - c > 0, for every ray including those with infinities and NaN. Over a scene the result is the nearest of all these points and the first of equally near ones. A packet of four or eight rays does the same in each of its lanes, without panic or undefined behaviour and whatever the other lanes hold, with dot products that are nested from right to left using the multiply-add of the target.", "quantifier": "all rays, planes, spheres, scenes and known points, also with NaN and infinities; both packet widths; all targets without SLEEF", "why_tests_cant": "the cases in which only some lanes hit, in which ties occur or NaN appears are too many to try; the minimum is over all scenes", "anchors": ["examples/aobench/src/intersection/ray_plane.rs: intersect", "examples/aobench/src/intersection/ray_sphere.rs: intersect", "examples/aobench/src/intersection/packet.rs: IsectxN", "examples/aobench/src/geometry/vec.rs: V3D", "examples/aobench/src/geometry/vecxN.rs: V3DxN", "examples/aobench/src/ambient_occlusion.rs"]}
{"id": "C66", "title": "Debug builds compare packets with single rays, which agree bit by bit on level planes but not on all", "statement": "In a debug build the packet intersections of the ambient occlusion example give the result of the release build if in every lane the result for the single ray differs by less than 1e-3 in every number and has the same hit flag, and panic otherwise. On a plane with normal vector (0, 1, 0), as in both scenes, packets and single rays agree bit by bit for all finite rays, whether mul_adde rounds once or twice, so that a debug build does not panic while the results are finite. The claim that they agree for all planes and finite rays is false: dot products are associated differently, so that for normal vector (1, 1e8, -1e8) and direction (1, 1, 1) the single ray is parallel to the plane and the packet hits it, and a debug build panics on every target.", "quantifier": "all rays, planes, spheres and known points, both packet widths, all targets without SLEEF", "why_tests_cant": "the assertion is itself a test of the inputs that occur; that it cannot fail on level planes needs all finite rays", "anchors": ["examples/aobench/src/intersection/ray_plane.rs: intersect, debug_assertions", "examples/aobench/src/intersection/ray_sphere.rs: intersect, debug_assertions", "examples/aobench/src/intersection/single.rs: almost_eq", "examples/aobench/src/scene/test.rs", "examples/aobench/src/scene/random.rs"]}
{"id": "C67", "title": "The coordinate systems of the ambient occlusion example are built the same way for one normal vector and for packets", "statement": "In the ambient occlusion example the coordinate system of a vector n has n as its third axis; the first is the unit vector along a x n, where a is the first of the three coordinate axes along which n has a component between -0.6 and 0.6 (the x axis if there is none), the second the unit vector along n x (first axis). Multiplying with it gives the vector with these coordinates. Every operation is one f32 rounding, for all inputs including NaN and infinities. Packets of four or eight vectors do this in each lane, also a packet times one matrix, with dot products nested from right to left using the multiply-add of the target, without panic or undefined behaviour.", "quantifier": "all vectors and matrices of f32, both packet widths, every lane, all targets without SLEEF", "why_tests_cant": "the branches depend on all bits of three numbers, and in packets the lanes take different ones", "anchors": ["examples/aobench/src/geometry/vec.rs: ortho_basis, M3x3", "examples/aobench/src/geometry/vecxN.rs: ortho_basis, M3x3xN"]}
{"id": "C68", "title": "The ambient occlusion of a point is the share of free samples, for single rays and for packets of rays", "statement": "scalar draws two random numbers r1, r2 for each of NAO_SAMPLES^2 samples; a sample is the direction (cos a sqrt r1, sin a sqrt r1, sqrt (1 - r1)) with a = 2 pi r2, in the coordinate system of the normal vector, and counts if a ray from 1e-4 above the point meets none of the objects. The value is 1 - hits / NAO_SAMPLES^2, between 0 and 1 and with the 8^2 samples of both scenes exact. vector does the same with packets of rays: if NAO_SAMPLES is a multiple of the number of lanes and packets of random numbers are drawn from rand, with the same numbers in the same order. On the test scene every point gets the same 128 numbers, in both functions, and on the random scene all numbers are in [0, 1) forever. There is neither panic nor undefined behaviour in a release build, and a debug build gives the same or panics. If NAO_SAMPLES is not a multiple of the number of lanes, vector takes too many samples and the value can be as low as 1 - N.", "quantifier": "all scenes, points, random numbers and states of the generators, any NAO_SAMPLES up to 4096, both packet widths, all targets without SLEEF, any cosine and sine", "why_tests_cant": "a test compares two images of one scene; the sample counts, the order of random numbers and the range of the value concern all of them", "anchors": ["examples/aobench/src/ambient_occlusion.rs: scalar, vector", "examples/aobench/src/scene/mod.rs: Scene", "examples/aobench/src/scene/random.rs", "examples/aobench/src/scene/test.rs"]}
{"id": "C69", "title": "The ambient occlusion of a packet of points is that of each point with its own lane of random numbers", "statement": "vector_tiled computes the ambient occlusion of four or eight points at once: each lane of the result is the share of free samples of the point in that lane, NAO_SAMPLES^2 of them, with the numbers in that lane of the packets of random numbers, whatever the other lanes hold; it lies between 0 and 1 and is exact on both scenes. On the test scene each point thereby gets only 64 / N different samples, each N times, since the 128 numbers repeat after 64 / N packets. There is neither panic nor undefined behaviour in a release build, and a debug build gives the same or panics.", "quantifier": "all scenes, packets of points, random numbers and states of the generators, any NAO_SAMPLES up to 4096, both packet widths, all targets without SLEEF, any cosine and sine", "why_tests_cant": "a test renders one scene; that lanes do not affect each other concerns all points", "anchors": ["examples/aobench/src/ambient_occlusion.rs: vector_tiled", "examples/aobench/src/scene/mod.rs: Scene", "examples/aobench/src/scene/random.rs", "examples/aobench/src/scene/test.rs"]}
{"id": "C70", "title": "The images of the ambient occlusion example are the means of what the rays of each pixel see", "statement": "scalar::ao and vector::ao send ns * ns rays through every pixel, row by row, in the directions ((x + a - w/2) / (w/2) w / h, -(y + b - h/2) / (h/2), -1) made unit vectors, with a = u / ns and b = v / ns. A ray that meets no object sees 0 and draws no random numbers; otherwise it sees the ambient occlusion of the nearest point it meets, and the random numbers are drawn in the order of the rays. The three components of the pixel get the mean of these values added (scalar divides the component by ns * ns at the end, vector scales every value), every operation rounded to f32; all other components stay as they are. The parallel versions do the same in every row, from the state of the random numbers the row starts with, whatever the order of the rows, and panic if the image has no columns. There is no panic or undefined behaviour otherwise in a release build. With the black image, the two scenes and the four rays per pixel of the program every component is exactly the mean of what its four rays see, a multiple of 1/256 from 0 to 1, and scalar and vector look in the same directions.", "quantifier": "all images up to 2^24 by 2^24, all scenes whose random numbers do not run out, all numbers of rays, both packet widths, all targets without SLEEF, any cosine and sine", "why_tests_cant": "tests compare a few images of fixed size with a tolerance; that no pixel is missed or drawn twice and that the mean is exact concerns all sizes and all random numbers", "anchors": ["examples/aobench/src/scalar.rs: ao", "examples/aobench/src/vector.rs: ao", "examples/aobench/src/scalar_parallel.rs: ao", "examples/aobench/src/vector_parallel.rs: ao", "examples/aobench/src/main.rs"]}
{"id": "C71", "title": "The packet versions of the ambient occlusion example draw every pixel as if its rays were alone, in any order of the rows", "statement": "tiled::ao sends packets of N rays through N neighbouring pixels of a row, ns * ns packets for each N pixels. Every pixel whose ray meets an object gets the ambient occlusion of the nearest point its ray meets, scaled by (1 / ns) * (1 / ns), added to its three components, every operation rounded to f32; pixels whose rays meet nothing, and all pixels outside of the packet, stay as they are. A packet draws nao * nao packets of random numbers if one of its rays meets an object and none otherwise. In tiled_parallel::ao all rows write to one image through the same pointer: whatever the order in which the ray packets of the rows get their turns, every row becomes what it becomes alone from its own random numbers, and two orders give the same image. With the black image, the scenes and the four rays per pixel of the program every component is exactly the mean of what its four rays see, a multiple of 1/256. Both panic if the width is not a multiple of N, the parallel one also if the image has no columns; otherwise a release build neither panics nor has undefined behaviour, and a debug build that does not panic paints the same image.", "quantifier": "all images up to 2^24 by 2^24, all scenes whose random numbers do not run out, all numbers of rays, both packet widths, all targets without SLEEF, any cosine and sine, all schedules of the ray packets of the rows", "why_tests_cant": "tests compare a few images with a tolerance; that scattered writes stay in the image and in the row, and that no interleaving of rows changes the result, concerns all sizes and schedules", "anchors": ["examples/aobench/src/tiled.rs: ao", "examples/aobench/src/tiled_parallel.rs: ao", "examples/aobench/src/main.rs"]}
{"id": "C72", "title": "The bytes of an image are its components times 255.5, truncated and clamped", "statement": "write_png gives the encoder one byte for each component: 255.5 times the component, rounded to f32, truncated, and at least 0 and at most 255, in the order of the components, or for separate planes component c of pixel i from element i of plane c. If one of the products does not fit isize (NaN, infinity or huge) the cast is undefined behaviour. In images of the program a component m / 256 becomes floor(511 m / 512), so black is 0 and white 255.", "quantifier": "all images with as many bytes as components, all f32 values including NaN and infinities", "why_tests_cant": "every f32 value is a case of its own, and the planes are permuted for every size", "anchors": ["examples/aobench/src/image.rs: Image, write_png"]}
{"id": "C73", "title": "The option pricing example gives every option the price of its formula, in the scalar and in the vector version", "statement": "Scalar black_scholes puts into result i the price of option i by the Black-Scholes formula with the cumulative normal distribution as a polynomial of degree five, and binomial_put the value of a put by a binomial tree with 64 leaves, every operation rounded to f32 and exp, ln and powf taken as they are; the other results stay as they are, and the returned sum adds all results in order in f64. With lengths and count multiples of eight the vector programs do the same lane by lane, except that the tree multiplies by 1 / disc instead of dividing by disc and the sum is formed by columns; if all results are multiples of one unit and small enough all sums are the exact total. In exact arithmetic both trees come to the discounted mean of the leaves over a binomial distribution. The scalar programs panic if a slice is shorter than count. The vector programs panic if count or the length of the result is not a multiple of eight, but, though safe functions, with a slice shorter than count they only panic in a debug build: a release build has undefined behaviour.", "quantifier": "all inputs of any length, all counts, including NaN and infinities, all targets without SLEEF, any functions exp, ln and powf", "why_tests_cant": "tests compare the sums of the versions on one start state in which all options are the same, with a tolerance; the formula must hold for every option and lane, and the failures for all lengths", "anchors": ["examples/options_pricing/src/scalar.rs", "examples/options_pricing/src/simd.rs", "examples/options_pricing/src/simd_kernels.rs", "examples/options_pricing/src/sum.rs"]}
{"id": "C74", "title": "What the parallel option pricing programs compute, in any order of the chunks", "statement": "The parallel programs work on chunks of eight results in any order. Two orders give the same sum and the same results. Result i is the price of option i / 8 + i mod 8, not of option i, because the inputs are read at the number of the chunk instead of at eight times the number; so that the parallel programs compute what the serial ones compute is refuted with sixteen different options. On the data that the program starts with, where all options are the same, all versions fill the result with prices of that option. If the lengths do not fit a debug build panics; in a release build a result whose length is not a multiple of eight is written beyond its end, and inputs that are too short never give a result.", "quantifier": "all inputs of any length, all orders of the chunks, all targets without SLEEF", "why_tests_cant": "the tests use options that are all the same, which hides the wrong index; the schedule of the chunks is chosen by the thread pool", "anchors": ["examples/options_pricing/src/simd_par.rs", "examples/options_pricing/src/lib.rs: State"]}
{"id": "C75", "title": "The n-body example simulates the solar system by the formulas it shows, in the scalar and in the vector version", "statement": "Both programs start with the solar system given in decimal, give the sun a speed that stops the whole, and return the energy before and after n steps of 0.01 years. A step, the energy and the speed of the sun are computed by explicit formulas in which every operation is rounded to f64: in the scalar version a pull is d * (m * mag), in the vector version (d * mag) * m, and the sun is stopped by the total momentum or by one planet after the other. This holds for any five bodies, whatever their numbers. The vector functions have a fourth coordinate; if it is zero it has no effect on the others, on any target and in either order of the sum, and it stays zero as long as the speeds are finite; so a vector run whose final energy is finite was such a sequence of steps. Neither program ever fails; an unknown algorithm panics. That the two versions give the same bits is refuted.", "quantifier": "all numbers of steps, all masses, places, speeds and time steps including NaN and infinities, all targets without SLEEF", "why_tests_cant": "the tests compare nine digits of the energy after a thousand steps from one start", "anchors": ["examples/nbody/src/scalar.rs", "examples/nbody/src/simd.rs", "examples/nbody/src/lib.rs: run"]}
{"id": "C76", "title": "In exact arithmetic the n-body steps follow the law of gravity and keep momentum, angular momentum and center of mass", "statement": "If the operations of the example are exact, a step of either version accelerates every body by the law of gravity and then moves it with its new speed, so both versions are the same; the energy is kinetic minus potential energy. Any number of steps keeps the momentum and the angular momentum, and the center of mass moves uniformly. Stopping leaves exactly the momentum that the sun had before (the scalar version leaves it backwards), hence zero for the solar system, where both versions give the sun the same speed; then the momentum stays zero and the center of mass in place for all steps. The energy is not claimed to be kept: the method is only approximate.", "quantifier": "all systems of five bodies, all time steps, any number of steps", "why_tests_cant": "conservation is a law over all states and all numbers of steps; tests look at rounded energies of one run", "anchors": ["examples/nbody/src/scalar.rs: advance, energy, offset_momentum", "examples/nbody/src/simd.rs: advance, energy, offset_momentum"]}
{"id": "C77", "title": "The Mandelbrot example writes correct bitmap files, or the beginning of one if the receiver fails", "statement": "If the width is a multiple of eight, the black and white output is a PBM file of that size in which exactly the points with count 50 are black. The colour output is a PPM file for any size: points with count 50 are black, the others have one of five colours by the remainder of the count by twelve; two colours are never mixed, although the code computes a mixture. If the receiver takes only so many bytes, it has got that much of the file and the error is returned (the program panics). With the default region, both algorithms write the file in which a point of the grid is black exactly if it does not escape within 50 iterations. Without an image nothing is written. If the number of points is no multiple of eight, the black and white output panics after the header. If it is one but the width is not, what is written is no PBM file of that size, as rows are not filled up: that any accepted size gives a valid file is refuted.", "quantifier": "all sizes, all counts, all receivers, every point at which the receiver may fail", "why_tests_cant": "the test compares one file of 200 x 200 points; the sizes and the points of failure are not bounded", "anchors": ["examples/mandelbrot/src/lib.rs: output_pbm, output_ppm, write_header, generate", "examples/mandelbrot/src/main.rs: main"]}
{"id": "C78", "title": "The memory of a Mandelbrot image is given back as it was asked for", "statement": "The scalar version returns a vector that holds exactly width times height elements and gives its memory back with the size and alignment it was asked for with. For the vector version this is refuted for every non-empty image: the vector of u32x8 is turned into one of u32 without changing its capacity, so it claims more elements than it has room for and gives back an eighth of the size, which the allocator forbids.", "quantifier": "all widths and heights, any alignment of the vector type", "why_tests_cant": "a wrong size is usually not noticed by an allocator, so the tests pass", "anchors": ["examples/mandelbrot/src/scalar_par.rs: generate", "examples/mandelbrot/src/simd_par.rs: generate"]}
{"id": "C79", "title": "Sums of arbitrary finite floats have a bounded error that does not depend on the target, the order or the schedule", "statement": "If no partial sum can overflow, the sum of a vector, of an iterator of vectors, of a slice (vertical, horizontal and parallel) and the dot products are finite and differ from the exact sum of the real numbers by at most ((1+u)^k - 1) times the sum of the magnitudes, where u is 2^-24 (f32) or 2^-53 (f64). k is lanes - 1 for a vector, the number of vectors - 1 for an iterator, n/8 + 6 for the slice sums, n/8 + 7 for the parallel sum of the elements it looks at, n and n/4 + 3 for the scalar and the vector dot product (each product may besides lose 2^-150), n - 1 and n/8 + 6 in f64 for the sums of option prices.", "quantifier": "all finite numbers, all vector types, lengths, targets, schedules", "why_tests_cant": "rounding errors depend on the numbers, the order of additions on the target and the schedule; a test sees one of them", "anchors": ["src/api/reductions/float_arithmetic.rs: sum", "src/api/reductions/float_arithmetic.rs: Sum for $id", "examples/slice_sum/src/main.rs: sum_ver, sum_hor, sum_ver_par", "examples/dot_product/src: dot_prod", "examples/options_pricing/src/sum.rs: slice, slice_scalar"]}
{"id": "C80", "title": "Formatting stops at the first failed write and reports it", "statement": "Formatting a vector or mask offers the strings that make up the text of C41 to the writer in order. The first write that fails is the last one, and its error is returned; if none fails, success is returned. A string gets the whole text; an array string of fixed size gets the whole text exactly if there is room for it, and a beginning of it otherwise; a byte buffer gets as many characters as it has room for. Formatting never panics.", "quantifier": "all writers, every point at which a write may fail, all vector types, lanes and ways in which elements write themselves", "why_tests_cant": "the tests write to a buffer of 512 bytes, which never fails", "anchors": ["src/api/fmt/debug.rs: impl_fmt_debug", "src/api/fmt/lower_hex.rs: impl_fmt_lower_hex", "src/api/fmt/upper_hex.rs", "src/api/fmt/octal.rs", "src/api/fmt/binary.rs", "src/api/minimal/ptr.rs: Debug", "src/masks.rs: Debug"]}
{"id": "C81", "title": "Formatting options apply to each lane", "statement": "Width, fill, alignment, sign, zero and # options of a format string apply to every lane of a vector by itself, as they would to the element: each lane is its sign, prefix and numeral in a field of at least the given width; names and separators are not padded. Lanes of masks are true or false, cut to the precision. Pointers are written in hexadecimal, with # in all their digits. Distinct integer vectors have distinct texts unless the fill character is a comma or occurs in numbers, distinct masks unless they are cut to nothing.", "quantifier": "all options, vector types and lanes", "why_tests_cant": "the tests use {:?} and {:#x} on the default vector only", "anchors": ["src/api/fmt/debug.rs: impl_fmt_debug", "src/api/fmt/lower_hex.rs: impl_fmt_lower_hex", "src/api/fmt/upper_hex.rs", "src/api/fmt/octal.rs", "src/api/fmt/binary.rs", "src/api/minimal/ptr.rs: Debug"]}
{"id": "C82", "title": "Relative errors of products, reciprocals, reciprocal square roots and mul_adde are small on every target", "statement": "recpre of a number whose reciprocal is a normal number is within one rounding of it; rsqrte of every positive finite number has a relative error of at most 2u/(1-u), u the unit roundoff; the product of the lanes of a vector, or of a lane of an iterator of vectors, is within one rounding less than there are factors of the exact product as long as the partial products are normal numbers or zero; mul_adde has an error bounded by its roundings and is at least as near to the exact value as a product and a sum rounded separately.", "quantifier": "all float vectors, lanes, numbers of vectors and targets", "why_tests_cant": "the documentation leaves the precision of the estimates unspecified; the tests compare a few powers of two with a tolerance of 2.4e-4", "anchors": ["src/api/math/float/recpre.rs: recpre", "src/api/math/float/rsqrte.rs: rsqrte", "src/api/math/float/mul_adde.rs: mul_adde", "src/codegen/math/float/mul_adde.rs", "src/api/reductions/float_arithmetic.rs: product"]}
{"id": "C83", "title": "The random number generators of aobench repeat after the product of their component cycles and not earlier", "statement": "The floats drawn from the scalar generator in any state repeat after exactly the product of four numbers: 2^31-1, 2^29-1, 2^28-1 and 2^25-1 for the components whose seed is at least 2, 8, 16 and 128, and 1 for the others. So a seed above all four thresholds gives a cycle of about 2^113; the scalar thread_rng has one of about 2^82; the first lane of the vector thread_rng repeats after 2^29-1 numbers, the second like the scalar one, and every other lane after about 2^113.", "quantifier": "all states, seeds, lanes, both vector widths and all distances between draws", "why_tests_cant": "a cycle of 2^113 or even of 2^29 numbers for all seeds cannot be run through, and that no shorter one exists concerns all distances", "anchors": ["examples/aobench/src/random.rs: scalar::RngT, vector::RngT, thread_rng"]}
{"id": "C84", "title": "All handles of a thread draw from one random sequence, and every thread draws the same one", "statement": "In the ambient occlusion example a program may get handles with thread_rng() in any number of threads, copy them and draw from them in any order. Each draw gives one number, without panic or undefined behaviour. The numbers drawn in one thread, through whichever of its handles, are in their order the first numbers of the generator seeded with the constant seed. So threads do not disturb each other, but the j-th numbers of any two threads are equal.", "quantifier": "all sequences of events in all threads: getting, copying and using handles; both generators and both vector widths", "why_tests_cant": "a test runs one interleaving of a few threads", "anchors": ["examples/aobench/src/random.rs: scalar::thread_rng, scalar::RngH, vector::thread_rng, vector::RngH, THREAD_RNG_KEY"]}
