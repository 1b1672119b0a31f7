{"id": "C01", "title": "add and sub wrap lane-wise", "statement": "add(a,b) and sub(a,b) on 8/16/32/64-bit integer vectors return, in every lane, the sum/difference of the corresponding lanes modulo 2^width; signedness of the arguments does not matter and no lane influences another.", "quantifier": "every pair of argument vectors of every supported length and element type, every combination of enabled instruction sets", "why_tests_cant": "The input space per lane pair is up to 2^128 and each instruction-set configuration compiles different code; tests run a handful of literal vectors on the CPUs at hand.", "anchors": ["simdpp/core/i_add.h:add", "simdpp/core/i_sub.h:sub", "simdpp/detail/insn/i_add.h", "simdpp/detail/insn/i_sub.h", "simdpp/detail/vector_array_macros.h"]}
{"id": "C02", "title": "saturating add and sub clamp to the element range", "statement": "add_sat/sub_sat on 8- and 16-bit signed and unsigned vectors return the exact sum/difference clamped to the representable range of the element type, in every lane.", "quantifier": "every pair of argument vectors of every supported length and element type, every combination of enabled instruction sets", "why_tests_cant": "The input space per lane pair is up to 2^128 and each instruction-set configuration compiles different code; tests run a handful of literal vectors on the CPUs at hand.", "anchors": ["simdpp/core/i_add_sat.h", "simdpp/core/i_sub_sat.h", "simdpp/detail/insn/i_add_sat.h", "simdpp/detail/insn/i_sub_sat.h", "simdpp/detail/null/math.h:saturate"]}
{"id": "C03", "title": "neg and abs", "statement": "neg returns the two's complement negation of each lane; abs returns the magnitude of each signed lane as an unsigned value (so the most negative value maps to 2^(width-1)).", "quantifier": "every pair of argument vectors of every supported length and element type, every combination of enabled instruction sets", "why_tests_cant": "The input space per lane pair is up to 2^128 and each instruction-set configuration compiles different code; tests run a handful of literal vectors on the CPUs at hand.", "anchors": ["simdpp/core/i_neg.h", "simdpp/core/i_abs.h", "simdpp/detail/insn/i_neg.h", "simdpp/detail/insn/i_abs.h"]}
{"id": "C04", "title": "mul_lo returns the low half of the product", "statement": "mul_lo(a,b) for 16- and 32-bit lanes equals the product modulo 2^width in each lane, on every backend including those that build it from partial products and shuffles.", "quantifier": "every pair of argument vectors of every supported length and element type, every combination of enabled instruction sets", "why_tests_cant": "The input space per lane pair is up to 2^128 and each instruction-set configuration compiles different code; tests run a handful of literal vectors on the CPUs at hand.", "anchors": ["simdpp/core/i_mul.h:mul_lo", "simdpp/detail/insn/i_mul_lo.h"]}
{"id": "C05", "title": "mul_hi and mull return exact high halves / full products", "statement": "mul_hi returns the upper 16 bits of the 32-bit product (signed or unsigned); mull returns the full double-width products of all lanes in lane order.", "quantifier": "every pair of argument vectors of every supported length and element type, every combination of enabled instruction sets", "why_tests_cant": "The input space per lane pair is up to 2^128 and each instruction-set configuration compiles different code; tests run a handful of literal vectors on the CPUs at hand.", "anchors": ["simdpp/core/i_mul.h:mul_hi", "simdpp/core/i_mull.h", "simdpp/detail/insn/i_mul_hi.h", "simdpp/detail/insn/i_mull.h"]}
{"id": "C06", "title": "integer min and max", "statement": "min/max return in each lane the smaller/larger of the two lanes under the element type's own (signed or unsigned) order. 64-bit elements are supported since AVX2 and on 64-bit NEON.", "quantifier": "every pair of argument vectors of every supported length and element type, every combination of enabled instruction sets on which the headers document the operation as supported", "why_tests_cant": "The input space per lane pair is up to 2^128 and each instruction-set configuration compiles different code; tests run a handful of literal vectors on the CPUs at hand.", "anchors": ["simdpp/core/i_min.h", "simdpp/core/i_max.h", "simdpp/detail/insn/i_min.h", "simdpp/detail/insn/i_max.h"]}
{"id": "C07", "title": "avg and avg_trunc never lose the carry", "statement": "avg returns floor((a+b+1)/2) and avg_trunc returns floor((a+b)/2) computed as if in infinite precision, in each lane.", "quantifier": "every pair of argument vectors of every supported length and element type, every combination of enabled instruction sets", "why_tests_cant": "The input space per lane pair is up to 2^128 and each instruction-set configuration compiles different code; tests run a handful of literal vectors on the CPUs at hand.", "anchors": ["simdpp/core/i_avg.h", "simdpp/core/i_avg_trunc.h", "simdpp/detail/insn/i_avg.h", "simdpp/detail/insn/i_avg_trunc.h"]}
{"id": "C08", "title": "integer comparisons produce exact masks", "statement": "cmp_eq, cmp_neq, cmp_lt, cmp_le, cmp_gt, cmp_ge on integer vectors produce a mask that is true in lane i exactly when the relation holds between lanes i under the element type's own order; as a vector the mask is all-ones or zero.", "quantifier": "every pair of argument vectors of every supported length and element type, every combination of enabled instruction sets", "why_tests_cant": "The input space per lane pair is up to 2^128 and each instruction-set configuration compiles different code; tests run a handful of literal vectors on the CPUs at hand.", "anchors": ["simdpp/core/cmp_*.h", "simdpp/detail/insn/cmp_eq.h", "simdpp/detail/insn/cmp_neq.h", "simdpp/detail/insn/cmp_lt.h", "simdpp/detail/insn/cmp_le.h", "simdpp/detail/insn/cmp_gt.h", "simdpp/detail/insn/cmp_ge.h"]}
{"id": "C09", "title": "shifts by a uniform count", "statement": "shift_l fills with zeros and drops high bits, shift_r fills with zeros on unsigned and with the sign on signed lanes, for every count below the lane width (compile-time or run-time), including the lane widths the hardware has no shift instruction for.", "quantifier": "every vector, every legal count, every instruction set", "why_tests_cant": "The input space per lane pair is up to 2^128 and each instruction-set configuration compiles different code; tests run a handful of literal vectors on the CPUs at hand.", "anchors": ["simdpp/core/i_shift_l.h", "simdpp/core/i_shift_r.h", "simdpp/detail/insn/i_shift_l.h", "simdpp/detail/insn/i_shift_r.h", "simdpp/detail/insn/i_shift.h"]}
{"id": "C10", "title": "shifts by per-lane counts", "statement": "shift_l/shift_r with a vector of counts shifts each lane by its own count, for every count below the lane width, on every backend that offers it.", "quantifier": "every vector, every vector of legal counts, every instruction set", "why_tests_cant": "The input space per lane pair is up to 2^128 and each instruction-set configuration compiles different code; tests run a handful of literal vectors on the CPUs at hand.", "anchors": ["simdpp/core/i_shift_l.h", "simdpp/core/i_shift_r.h", "simdpp/detail/insn/i_shift_l_v.h", "simdpp/detail/insn/i_shift_r_v.h"]}
{"id": "C11", "title": "bitwise operations", "statement": "bit_and, bit_or, bit_xor, bit_andnot, bit_not act on every bit independently for vectors, for vector-with-mask and for mask-with-mask arguments (mask arguments behaving as all-ones/zero lanes).", "quantifier": "every pair of argument vectors of every supported length and element type, every combination of enabled instruction sets", "why_tests_cant": "The input space per lane pair is up to 2^128 and each instruction-set configuration compiles different code; tests run a handful of literal vectors on the CPUs at hand.", "anchors": ["simdpp/core/bit_*.h", "simdpp/detail/insn/bit_and.h", "simdpp/detail/insn/bit_or.h", "simdpp/detail/insn/bit_xor.h", "simdpp/detail/insn/bit_andnot.h", "simdpp/detail/insn/bit_not.h", "simdpp/detail/null/bitwise.h"]}
{"id": "C12", "title": "blend selects per lane", "statement": "blend(on, off, mask) returns lane i of `on` where the mask is true and lane i of `off` elsewhere.", "quantifier": "every pair of vectors, every mask, every element type and instruction set", "why_tests_cant": "The input space per lane pair is up to 2^128 and each instruction-set configuration compiles different code; tests run a handful of literal vectors on the CPUs at hand.", "anchors": ["simdpp/core/blend.h", "simdpp/core/bit_select.h", "simdpp/detail/insn/blend.h", "simdpp/detail/insn/bit_select.h"]}
{"id": "C13", "title": "popcnt", "statement": "popcnt returns in each lane the number of one bits of that lane.", "quantifier": "every pair of argument vectors of every supported length and element type, every combination of enabled instruction sets", "why_tests_cant": "The input space per lane pair is up to 2^128 and each instruction-set configuration compiles different code; tests run a handful of literal vectors on the CPUs at hand.", "anchors": ["simdpp/core/i_popcnt.h", "simdpp/detail/insn/i_popcnt.h", "simdpp/detail/null/bitwise.h:el_popcnt8"]}
{"id": "C14", "title": "horizontal reductions", "statement": "reduce_add/mul/min/max/and/or/popcnt return the combination of all lanes of the vector (reduce_add in the documented wider type), each lane counted exactly once whatever the vector length.", "quantifier": "every pair of argument vectors of every supported length and element type, every combination of enabled instruction sets", "why_tests_cant": "The input space per lane pair is up to 2^128 and each instruction-set configuration compiles different code; tests run a handful of literal vectors on the CPUs at hand.", "anchors": ["simdpp/core/i_reduce_*.h", "simdpp/detail/insn/i_reduce_*.h"]}
{"id": "C15", "title": "the scalar backend is free of undefined behaviour", "statement": "On the no-SIMD backend the operations above execute no C++ undefined behaviour for any lane values.", "quantifier": "every lane value, every operation of the scalar backend", "why_tests_cant": "UB shows only for particular operand pairs and usually produces the expected number under test.", "anchors": ["simdpp/detail/null/math.h", "simdpp/detail/null/bitwise.h", "simdpp/detail/insn/i_mul_lo.h"]}
{"id": "C16", "title": "permutes and shuffles pick the requested lanes", "statement": "permute2/permute4/shuffle2x2/shuffle4x2/shuffle1/shuffle2 return, per 128-bit (or 256-bit) group, exactly the source lanes named by the template selectors.", "quantifier": "every selector tuple, every vector contents, every instruction set", "why_tests_cant": "There are up to 4096 selector tuples per element type per backend, each its own specialised template; tests sample them on one data vector.", "anchors": ["simdpp/core/permute2.h", "simdpp/core/permute4.h", "simdpp/core/shuffle4x2.h", "simdpp/core/shuffle2x2.h", "simdpp/detail/insn/shuffle4x2.h", "simdpp/detail/shuffle/*"]}
{"id": "C17", "title": "zip and unzip", "statement": "zipN_lo/zipN_hi interleave the low/high halves of each 128-bit group, unzipN_lo/unzipN_hi collect the even/odd lanes; unzip inverts zip and zip inverts unzip.", "quantifier": "every pair of argument vectors of every supported length and element type, every combination of enabled instruction sets", "why_tests_cant": "The input space per lane pair is up to 2^128 and each instruction-set configuration compiles different code; tests run a handful of literal vectors on the CPUs at hand.", "anchors": ["simdpp/core/zip_lo.h", "simdpp/core/zip_hi.h", "simdpp/core/unzip_lo.h", "simdpp/core/unzip_hi.h", "simdpp/detail/insn/zip_lo.h", "simdpp/detail/insn/unzip_lo.h"]}
{"id": "C18", "title": "transpose", "statement": "transpose2/transpose4 (and the wider block transposes) transpose the lane matrix formed by their reference arguments in place; applying the operation twice restores the arguments.", "quantifier": "every pair of argument vectors of every supported length and element type, every combination of enabled instruction sets", "why_tests_cant": "The input space per lane pair is up to 2^128 and each instruction-set configuration compiles different code; tests run a handful of literal vectors on the CPUs at hand.", "anchors": ["simdpp/core/transpose.h", "simdpp/detail/insn/transpose.h"]}
{"id": "C19", "title": "align and move", "statement": "alignN<k>(lo,hi) returns the window starting at lane k of the concatenation of each 128-bit group; moveN_l/moveN_r shift lanes inserting zeros.", "quantifier": "every k, all vectors, every instruction set", "why_tests_cant": "The input space per lane pair is up to 2^128 and each instruction-set configuration compiles different code; tests run a handful of literal vectors on the CPUs at hand.", "anchors": ["simdpp/core/align.h", "simdpp/core/move_l.h", "simdpp/core/move_r.h", "simdpp/detail/insn/align.h", "simdpp/detail/insn/move_l.h", "simdpp/detail/insn/move_r.h"]}
{"id": "C20", "title": "byte shuffles", "statement": "permute_bytes16/shuffle_bytes16 pick for every result byte the byte selected by the mask; the z-variants additionally write zero when the selector's top bit is set.", "quantifier": "every data vector and every legal selector vector", "why_tests_cant": "The input space per lane pair is up to 2^128 and each instruction-set configuration compiles different code; tests run a handful of literal vectors on the CPUs at hand.", "anchors": ["simdpp/core/shuffle_bytes16.h", "simdpp/core/permute_bytes16.h", "simdpp/core/shuffle_zbytes16.h", "simdpp/core/permute_zbytes16.h"]}
{"id": "C21", "title": "split/combine, extract/insert", "statement": "combine(split(v)) = v and split(combine(a,b)) = (a,b); extract<i>(insert<i>(v,x)) = x and other lanes are unchanged by insert.", "quantifier": "every vector, every lane index, every element type", "why_tests_cant": "The input space per lane pair is up to 2^128 and each instruction-set configuration compiles different code; tests run a handful of literal vectors on the CPUs at hand.", "anchors": ["simdpp/core/split.h", "simdpp/core/combine.h", "simdpp/core/extract.h", "simdpp/core/insert.h"]}
{"id": "C22", "title": "loads and stores move exactly the vector", "statement": "store writes exactly the vector's bytes in lane order and nothing else, and load of that memory returns the vector; store_first(p,v,n) leaves the lanes >= n of the destination unchanged, store_last(p,v,n) leaves the lanes before length-n unchanged, store_masked writes exactly the lanes whose mask is true.", "quantifier": "every memory contents, every n, every mask, every vector", "why_tests_cant": "The input space per lane pair is up to 2^128 and each instruction-set configuration compiles different code; tests run a handful of literal vectors on the CPUs at hand.", "anchors": ["simdpp/core/store.h", "simdpp/core/load.h", "simdpp/core/store_first.h", "simdpp/core/store_last.h", "simdpp/core/store_masked.h"]}
{"id": "C23", "title": "packed loads and stores are de-interleave / interleave", "statement": "load_packed{2,3,4} splits an array of 2/3/4-element records into one vector per field in order, store_packed{2,3,4} is its exact inverse.", "quantifier": "all memory contents, all element widths and lengths", "why_tests_cant": "The input space per lane pair is up to 2^128 and each instruction-set configuration compiles different code; tests run a handful of literal vectors on the CPUs at hand.", "anchors": ["simdpp/core/load_packed2.h", "simdpp/core/load_packed3.h", "simdpp/core/load_packed4.h", "simdpp/core/store_packed2.h", "simdpp/detail/insn/mem_pack.h", "simdpp/detail/insn/mem_unpack.h"]}
{"id": "C24", "title": "the dispatcher picks a runnable, best version", "statement": "The version selected at run time is one the user supplied with a non-null function, needs only instruction sets the CPU reports, and no other runnable version ranks higher; the choice does not depend on the order of registration; the program aborts only when no supplied version is runnable.", "quantifier": "every list of versions (any size, any order, null entries allowed) and every reported instruction-set word", "why_tests_cant": "The list of versions is user-controlled and exponentially many feature words exist; the code relies on an unstable sort.", "anchors": ["simdpp/dispatch/dispatcher.h:select_version_any", "simdpp/dispatch/arch.h:test_arch_subset"]}
{"id": "C25", "title": "CPU detection never reports an instruction set that cannot be executed", "statement": "Every instruction set reported by get_arch_raw_cpuid is implemented by the CPU and its register state is enabled by the operating system.", "quantifier": "every CPUID/XGETBV response", "why_tests_cant": "Needs machines with unusual OS/CPU combinations.", "anchors": ["simdpp/dispatch/get_arch_raw_cpuid.h:get_arch_raw_cpuid"]}
{"id": "C26", "title": "different instruction-set configurations never share a namespace", "statement": "Two translation units compiled for different effective instruction sets get different architecture namespaces, so the linker can never merge code compiled for different CPUs.", "quantifier": "all pairs of the 2^20 configurations", "why_tests_cant": "2^40 pairs.", "anchors": ["simdpp/setup_arch.h:SIMDPP_ARCH_NAMESPACE", "simdpp/detail/preprocess_single_arch.h", "simdpp/detail/insn_id.h"]}
{"id": "C27", "title": "enabled instruction sets are closed under implication", "statement": "Enabling an instruction set enables every instruction set it implies, the scalar backend is chosen exactly when no SIMD family is enabled, and the required-architecture word of the compiled code contains a bit for every instruction set it may use.", "quantifier": "all configurations", "why_tests_cant": "2^20 configurations.", "anchors": ["simdpp/detail/preprocess_single_arch.h", "simdpp/this_compile_arch.h"]}
{"id": "C28", "title": "aligned_allocator returns aligned, disjoint, fully usable storage", "statement": "allocate(n) returns null for n=0, throws when n exceeds max_size, and otherwise returns storage for n objects that is aligned to A, lies wholly inside the block obtained from the heap, leaves room for the bookkeeping pointer, and deallocate hands exactly the original block back to the heap.", "quantifier": "every n, element size, alignment and heap address", "why_tests_cant": "Addresses and sizes near the limits cannot be produced in tests.", "anchors": ["simdpp/core/aligned_allocator.h"]}
{"id": "C29", "title": "for_each visits every lane once in order", "statement": "for_each(v,f) calls f on lane 0,1,...,N-1 exactly once each, in that order, for every vector length.", "quantifier": "all vectors, all lengths, all instruction sets", "why_tests_cant": "Unbounded vector lengths.", "anchors": ["simdpp/core/for_each.h", "simdpp/detail/for_each.h"]}
{"id": "C30", "title": "bitonic_sort sorts", "statement": "bitonic_sort_asc/dec on one or two 8-lane registers leaves a sorted permutation of the original lanes.", "quantifier": "every content of the registers (2^256 / 2^512 inputs)", "why_tests_cant": "2^512 inputs.", "anchors": ["simdpp/algorithm/bitonic_sort.h"]}
{"id": "C31", "title": "result types of mixed-type expressions", "statement": "The result type of a binary integer/bitwise operation does not depend on argument order; masks and signed types are promoted exactly as documented and element width/length are preserved.", "quantifier": "all pairs of vector types and lengths", "why_tests_cant": "Compile-time property over all type pairs.", "anchors": ["simdpp/detail/get_expr.h", "simdpp/core/detail/get_expr_uint.h", "simdpp/core/detail/get_expr_bitwise.h", "simdpp/types/tag.h"]}
{"id": "C32", "title": "integer widening conversions", "statement": "to_int16/32/64 (to_uint*) of narrower vectors sign- or zero-extend each lane according to the source type, keep lane order and lane count.", "quantifier": "every pair of argument vectors of every supported length and element type, every combination of enabled instruction sets", "why_tests_cant": "The input space per lane pair is up to 2^128 and each instruction-set configuration compiles different code; tests run a handful of literal vectors on the CPUs at hand.", "anchors": ["simdpp/core/to_int16.h", "simdpp/core/to_int32.h", "simdpp/core/to_int64.h", "simdpp/detail/insn/conv_extend_to_int16.h", "simdpp/detail/insn/conv_extend_to_int32.h", "simdpp/detail/insn/conv_extend_to_int64.h"]}
{"id": "C33", "title": "integer narrowing conversions truncate", "statement": "to_int8/16/32 of wider vectors keep the low bits of each lane, in order.", "quantifier": "every pair of argument vectors of every supported length and element type, every combination of enabled instruction sets", "why_tests_cant": "The input space per lane pair is up to 2^128 and each instruction-set configuration compiles different code; tests run a handful of literal vectors on the CPUs at hand.", "anchors": ["simdpp/core/to_int8.h", "simdpp/core/to_int16.h", "simdpp/core/to_int32.h", "simdpp/detail/insn/conv_shrink_to_int8.h", "simdpp/detail/insn/conv_shrink_to_int16.h", "simdpp/detail/insn/conv_shrink_to_int32.h"]}
{"id": "C34", "title": "to_mask", "statement": "to_mask(v) is true in lane i exactly when lane i of v is non-zero (all-ones lanes for vectors that came from masks).", "quantifier": "every pair of argument vectors of every supported length and element type, every combination of enabled instruction sets", "why_tests_cant": "The input space per lane pair is up to 2^128 and each instruction-set configuration compiles different code; tests run a handful of literal vectors on the CPUs at hand.", "anchors": ["simdpp/core/to_mask.h", "simdpp/detail/insn/conv_to_mask.h"]}
{"id": "C35", "title": "test_bits_any and extract_bits", "statement": "test_bits_any(v) is true exactly when some bit of v is set; extract_bits<k>(v) packs bit k of every byte lane into the corresponding bit of the result.", "quantifier": "every pair of argument vectors of every supported length and element type, every combination of enabled instruction sets", "why_tests_cant": "The input space per lane pair is up to 2^128 and each instruction-set configuration compiles different code; tests run a handful of literal vectors on the CPUs at hand.", "anchors": ["simdpp/core/test_bits.h", "simdpp/core/extract_bits.h", "simdpp/detail/insn/test_bits.h", "simdpp/detail/insn/extract_bits.h"]}
{"id": "C36", "title": "floating-point bit operations", "statement": "neg, abs, sign and copysign on float vectors change only sign bits and classify NaN/inf/zero correctly: isnan is true exactly on NaN, isnan2 when either is NaN, isfinite exactly on finite values.", "quantifier": "every bit pattern of float32/float64 lanes", "why_tests_cant": "The input space per lane pair is up to 2^128 and each instruction-set configuration compiles different code; tests run a handful of literal vectors on the CPUs at hand.", "anchors": ["simdpp/core/f_abs.h", "simdpp/core/f_neg.h", "simdpp/core/f_sign.h", "simdpp/core/f_copysign.h", "simdpp/core/f_isnan.h", "simdpp/core/f_isnan2.h", "simdpp/core/f_isfinite.h"]}
{"id": "C37", "title": "the result of an operation does not depend on the vector length", "statement": "Splitting a long vector into halves, applying a lane-wise operation to the halves and combining gives the same as applying it to the long vector.", "quantifier": "all lengths, all operations, all instruction sets", "why_tests_cant": "Unbounded lengths.", "anchors": ["simdpp/detail/vector_array_macros.h", "simdpp/core/split.h", "simdpp/core/combine.h"]}
{"id": "C38", "title": "portability: all instruction sets compute the same function", "statement": "For each operation above, the same source program computes the same lanes whichever instruction sets it is compiled for.", "quantifier": "all pairs of instruction-set configurations", "why_tests_cant": "2^40 pairs of configurations times inputs.", "anchors": ["simdpp/detail/insn/*"]}
{"id": "C39", "title": "splat and constant construction", "statement": "make_int/make_uint/splat/load_splat/set_splat place the requested value in the requested lanes for every vector length; splatN<i> copies lane i of each 128-bit group.", "quantifier": "all values, lane indices, lengths", "why_tests_cant": "The input space per lane pair is up to 2^128 and each instruction-set configuration compiles different code; tests run a handful of literal vectors on the CPUs at hand.", "anchors": ["simdpp/core/make_int.h", "simdpp/core/make_uint.h", "simdpp/core/splat.h", "simdpp/core/set_splat.h", "simdpp/core/splat_n.h", "simdpp/detail/insn/make_const.h"]}
{"id": "C40", "title": "CPU feature lists", "statement": "get_arch_linux_cpuinfo / get_arch_string_list report exactly the union of the instruction sets implied by the recognised names in the input, ignoring unknown names and lines with another prefix, independent of order and repetition.", "quantifier": "every list of strings / every /proc/cpuinfo contents", "why_tests_cant": "Unbounded inputs.", "anchors": ["simdpp/dispatch/get_arch_linux_cpuinfo.h", "simdpp/dispatch/get_arch_string_list.h"]}
{"id": "C41", "title": "masks compare lane by lane whatever the number of lanes", "statement": "cmp_eq and cmp_neq of two masks are true exactly in the lanes where the masks agree / differ, for every number of lanes of a register.", "quantifier": "every pair of argument vectors of every supported length and element type, every combination of enabled instruction sets", "why_tests_cant": "The input space per lane pair is up to 2^128 and each instruction-set configuration compiles different code; tests run a handful of literal vectors on the CPUs at hand.", "anchors": ["simdpp/core/cmp_eq.h", "simdpp/core/cmp_neq.h", "simdpp/detail/insn/cmp_eq.h", "simdpp/detail/insn/cmp_neq.h"]}
{"id": "C42", "title": "detection through compiler builtins agrees with the CPU", "statement": "get_arch_gcc_builtin_cpu_supports reports an instruction set only if the CPU (and operating system) supports it and all sets it implies are reported with it, and reports every supported set it knows about.", "quantifier": "every set of CPU features", "why_tests_cant": "Needs every CPU model.", "anchors": ["simdpp/dispatch/get_arch_gcc_builtin_cpu_supports.h"]}
{"id": "C43", "title": "float comparisons follow IEEE 754", "statement": "cmp_eq, cmp_neq, cmp_lt, cmp_le, cmp_gt and cmp_ge on float32/float64 vectors give, in every lane, the IEEE comparison of the two lanes: false (cmp_neq: true) when either lane is NaN, -0 equal to +0, infinities ordered beyond all finite values.", "quantifier": "every bit pattern of every lane, every vector length and configuration", "why_tests_cant": "The input space per lane pair is up to 2^128 and each instruction-set configuration compiles different code; tests run a handful of literal vectors on the CPUs at hand.", "anchors": ["simdpp/core/cmp_eq.h", "simdpp/core/cmp_lt.h", "simdpp/detail/insn/cmp_eq.h", "simdpp/detail/insn/cmp_lt.h", "simdpp/detail/insn/cmp_le.h", "simdpp/detail/insn/cmp_gt.h", "simdpp/detail/insn/cmp_ge.h", "simdpp/detail/insn/cmp_neq.h"]}
{"id": "C44", "title": "float addition and subtraction are correctly rounded", "statement": "add and sub on float32/float64 vectors give, in every lane, the IEEE sum or difference of the two lanes rounded to nearest even, including denormals, signed zeros, overflow to infinity and NaN propagation.", "quantifier": "every bit pattern of every lane, every vector length and configuration", "why_tests_cant": "The input space per lane pair is up to 2^128 and each instruction-set configuration compiles different code; tests run a handful of literal vectors on the CPUs at hand.", "anchors": ["simdpp/core/f_add.h", "simdpp/core/f_sub.h", "simdpp/detail/insn/f_add.h", "simdpp/detail/insn/f_sub.h"]}
{"id": "C45", "title": "bit_cast keeps every bit", "statement": "bit_cast between vector types of the same total size preserves every byte in order, whatever registers the two types are kept in; casting back gives the original vector.", "quantifier": "all pairs of vector types, all lengths, all contents, all configurations", "why_tests_cant": "The input space per lane pair is up to 2^128 and each instruction-set configuration compiles different code; tests run a handful of literal vectors on the CPUs at hand.", "anchors": ["simdpp/core/cast.h", "simdpp/detail/cast_bitwise.h"]}
{"id": "C46", "title": "float min, max and clamp", "statement": "min and max of float vectors give in every lane a value equal to the smaller/larger of the two lanes whenever neither is NaN; clamp(v,lo,hi) gives std::clamp in every lane when lo <= hi, for integers and for non-NaN floats.", "quantifier": "every bit pattern of every lane, every vector length and configuration", "why_tests_cant": "The input space per lane pair is up to 2^128 and each instruction-set configuration compiles different code; tests run a handful of literal vectors on the CPUs at hand.", "anchors": ["simdpp/core/f_min.h", "simdpp/core/f_max.h", "simdpp/detail/insn/f_min.h", "simdpp/detail/insn/f_max.h", "simdpp/core/f_clamp.h", "simdpp/core/i_clamp.h"]}
{"id": "C47", "title": "float multiplication is correctly rounded", "statement": "mul on float32/float64 vectors gives, in every lane, the IEEE product of the two lanes rounded to nearest even: no other float is nearer, ties go to the even pattern, the sign (also of a zero) is the xor of the signs, infinity times zero and NaN operands give NaN.", "quantifier": "every bit pattern of every lane, every vector length and configuration", "why_tests_cant": "The input space per lane pair is up to 2^128 and each instruction-set configuration compiles different code; tests run a handful of literal vectors on the CPUs at hand.", "anchors": ["simdpp/core/f_mul.h", "simdpp/detail/insn/f_mul.h"]}
{"id": "C48", "title": "float division and square root are correctly rounded", "statement": "div and sqrt on float32/float64 vectors give, in every lane, the IEEE quotient or square root rounded to nearest even, including denormals, zeros, infinities and NaN.", "quantifier": "every bit pattern of every lane, every vector length and configuration", "why_tests_cant": "The input space per lane pair is up to 2^128 and each instruction-set configuration compiles different code; tests run a handful of literal vectors on the CPUs at hand.", "anchors": ["simdpp/core/f_div.h", "simdpp/core/f_sqrt.h", "simdpp/detail/insn/f_div.h", "simdpp/detail/insn/f_sqrt.h"]}
{"id": "C49", "title": "fmadd and fmsub compute a*b+c and a*b-c with one rounding", "statement": "fmadd(a,b,c) and fmsub(a,b,c) give, in every lane, a*b+c and a*b-c rounded once to nearest even, wherever they are available.", "quantifier": "every bit pattern of every lane, every vector length and configuration", "why_tests_cant": "The input space per lane pair is up to 2^128 and each instruction-set configuration compiles different code; tests run a handful of literal vectors on the CPUs at hand.", "anchors": ["simdpp/core/f_fmadd.h", "simdpp/core/f_fmsub.h", "simdpp/detail/insn/f_fmadd.h", "simdpp/detail/insn/f_fmsub.h"]}
{"id": "C50", "title": "float32 <-> 32-bit integer conversions", "statement": "to_int32/to_uint32 of a float32 vector give the integer part of every lane that is representable (and the documented or saturated value otherwise); to_float32 of int32/uint32 gives the nearest float, exactly for integers of at most 24 bits and for all 8/16-bit integers.", "quantifier": "every bit pattern of every lane, every vector length and configuration", "why_tests_cant": "The input space per lane pair is up to 2^128 and each instruction-set configuration compiles different code; tests run a handful of literal vectors on the CPUs at hand.", "anchors": ["simdpp/core/to_int32.h", "simdpp/core/to_float32.h", "simdpp/detail/insn/conv_float_to_int32.h", "simdpp/detail/insn/conv_any_to_float32.h"]}
{"id": "C51", "title": "floor, ceil and trunc round to an integral value in their direction", "statement": "floor, ceil and trunc on float32/float64 vectors give, in every lane, the greatest integer not above, the least integer not below, and the integer part of the lane's value; NaN stays NaN and infinities stay.", "quantifier": "every bit pattern of every lane, every vector length and configuration", "why_tests_cant": "The input space per lane pair is up to 2^128 and each instruction-set configuration compiles different code; tests run a handful of literal vectors on the CPUs at hand.", "anchors": ["simdpp/core/f_floor.h", "simdpp/core/f_ceil.h", "simdpp/core/f_trunc.h", "simdpp/detail/insn/f_floor.h", "simdpp/detail/insn/f_ceil.h", "simdpp/detail/insn/f_trunc.h"]}
{"id": "C52", "title": "Float reductions combine every lane exactly once", "statement": "reduce_add and reduce_mul of a float vector combine every lane exactly once through correctly rounded additions or multiplications (so sums and products of small integers are exact whatever the order); reduce_min and reduce_max return the least and greatest lane when no lane is NaN.", "quantifier": "every bit pattern of every lane, every vector length and configuration", "why_tests_cant": "The input space per lane pair is up to 2^128 and each instruction-set configuration compiles different code; tests run a handful of literal vectors on the CPUs at hand.", "anchors": ["simdpp/core/f_reduce_add.h", "simdpp/core/f_reduce_mul.h", "simdpp/core/f_reduce_min.h", "simdpp/core/f_reduce_max.h", "simdpp/detail/insn/f_reduce_add.h", "simdpp/detail/insn/f_reduce_mul.h", "simdpp/detail/insn/f_reduce_min.h", "simdpp/detail/insn/f_reduce_max.h"]}
{"id": "C53", "title": "div_p divides the P least significant bits", "statement": "div_p<P>(num, den) gives, in every lane, the quotient of the P least significant bits of num by those of den, for divisors that are not zero.", "quantifier": "every P up to the lane width, every lane value and configuration", "why_tests_cant": "The input space per lane pair is up to 2^128 and each instruction-set configuration compiles different code; tests run a handful of literal vectors on the CPUs at hand.", "anchors": ["simdpp/core/i_div_p.h", "simdpp/detail/null/math.h"]}
{"id": "C54", "title": "Conversions to and from float64", "statement": "to_float64 of float32 keeps every number, sign, infinity and NaN; of 8-, 16- and 32-bit integers it is exact; of 64-bit integers nearest, wherever the conversion is offered. to_float32(float64) rounds to the nearest float32, a float32 that went through float64 comes back, and to_int32 / to_uint32 of float64 give the integer part, with the documented results outside the range.", "quantifier": "all vectors of every length, every lane value, every configuration", "why_tests_cant": "The input space per lane pair is up to 2^128 and each instruction-set configuration compiles different code; tests run a handful of literal vectors on the CPUs at hand.", "anchors": ["simdpp/detail/insn/conv_any_to_float64.h", "simdpp/detail/insn/conv_any_to_float32.h", "simdpp/detail/insn/conv_float_to_int32.h", "simdpp/core/to_float64.h", "simdpp/core/to_float32.h", "simdpp/core/to_int32.h"]}
{"id": "C55", "title": "Conversions between floating-point numbers and 64-bit integers", "statement": "to_int64 and to_uint64 of float32 and float64 give the integer part wherever it is representable, with the documented results outside the range; to_float32 of 64-bit integers gives the nearest float32; int64 to float64 and back keeps integers of up to 53 bits.", "quantifier": "all vectors of every length, every lane value, every configuration that offers the conversion", "why_tests_cant": "The input space per lane pair is up to 2^128 and each instruction-set configuration compiles different code; tests run a handful of literal vectors on the CPUs at hand.", "anchors": ["simdpp/detail/insn/conv_float_to_int64.h", "simdpp/detail/insn/conv_any_to_float32.h", "simdpp/core/to_int64.h", "simdpp/core/to_float32.h", "simdpp/capabilities.h"]}
{"id": "C56", "title": "Conversions of floats to 8- and 16-bit integers", "statement": "to_int8, to_uint8, to_int16 and to_uint16 of float32 and float64 give the integer part, cut to the width of the result, for every number whose integer part is an int32_t; the order of the lanes is kept; outside that range the result is determined per instruction set.", "quantifier": "all vectors of every length, every lane value, every configuration", "why_tests_cant": "The input space per lane pair is up to 2^128 and each instruction-set configuration compiles different code; tests run a handful of literal vectors on the CPUs at hand.", "anchors": ["simdpp/detail/insn/conv_float_to_int16.h", "simdpp/detail/insn/conv_float_to_int8.h", "simdpp/core/to_int16.h", "simdpp/core/to_int8.h"]}
{"id": "C57", "title": "log2_approx", "statement": "log2_approx gives NaN for NaN and for numbers below zero, -infinity for zero of either sign, +infinity for +infinity, and for every other positive number a finite result within 1/100 of its base-2 logarithm; log2_approx_positive_finite does the latter.", "quantifier": "all vectors of every length, every lane value, every configuration", "why_tests_cant": "The input space per lane pair is up to 2^128 and each instruction-set configuration compiles different code; tests run a handful of literal vectors on the CPUs at hand.", "anchors": ["simdpp/math/log2_approx.h", "simdpp/core/f_isfinite.h", "simdpp/detail/insn/make_const.h"]}
{"id": "C58", "title": "make_float, and make_int/make_uint for float vectors", "statement": "make_float(v0, v1, ...) assigned to a float64 vector gives element k the value v(k mod n); assigned to a float32 vector, the float32 nearest to that value. make_int and make_uint assigned to float vectors give the float nearest to the integer.", "quantifier": "all lists of values, all vector lengths, all configurations", "why_tests_cant": "The input space per lane pair is up to 2^128 and each instruction-set configuration compiles different code; tests run a handful of literal vectors on the CPUs at hand.", "anchors": ["simdpp/core/make_float.h", "simdpp/detail/insn/make_const.h"]}
{"id": "C59", "title": "float arithmetic on every unit, also those that flush denormals", "statement": "On every configuration, each operation on float vectors is one fixed function of the lanes, whatever the vector length and the register. On units that handle denormals it is the IEEE function. On 32-bit ARM NEON and AltiVec without VSX (float32) add, sub, mul, min, max and the comparisons are the IEEE functions of the operands with denormals replaced by zeros of the same sign, denormal results replaced likewise (on AltiVec a product is x*y+0); division and square root, where the library works from estimates (there, and float32 square root on VSX), are two (one) Newton steps from the processor's estimate.", "quantifier": "every bit pattern of every lane, every vector length, every configuration, every estimate function", "why_tests_cant": "The input space per lane pair is up to 2^128 and each instruction-set configuration compiles different code; tests run a handful of literal vectors on the CPUs at hand.", "anchors": ["simdpp/detail/insn/f_add.h", "simdpp/detail/insn/f_mul.h", "simdpp/detail/insn/f_div.h", "simdpp/detail/insn/f_sqrt.h", "simdpp/detail/insn/f_rcp_rh.h", "simdpp/detail/insn/f_rsqrt_rh.h", "simdpp/detail/insn/f_min.h", "simdpp/detail/insn/cmp_lt.h"]}
{"id": "C60", "title": "a kernel leaves the same memory on every instruction set", "statement": "Loading integer vectors from arrays, running any program of the library's integer operators and lane moves on them and storing the result writes, element by element, the program's value of the input elements, changes no other byte, and leaves the same bytes in memory on every instruction set, also when input and output arrays overlap.", "quantifier": "every program, every vector length, every memory contents, every pair of configurations", "why_tests_cant": "The input space per lane pair is up to 2^128 and each instruction-set configuration compiles different code; tests run a handful of literal vectors on the CPUs at hand.", "anchors": ["simdpp/core/load.h", "simdpp/core/store.h", "simdpp/detail/insn/load.h", "simdpp/detail/insn/store.h"]}
