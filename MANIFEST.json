{
 "claims": [
  {
   "property": "C01",
   "status": "proved",
   "theorems": [
    "add_spec",
    "sub_spec"
   ],
   "note": "all instruction sets, widths, register sizes, lengths"
  },
  {
   "property": "C02",
   "status": "proved",
   "theorems": [
    "add_sat_u_spec",
    "sub_sat_u_spec",
    "add_sat_s_spec",
    "sub_sat_s_spec"
   ],
   "note": ""
  },
  {
   "property": "C03",
   "status": "partial",
   "theorems": [
    "neg_partial",
    "neg_int_min_refuted",
    "abs_partial",
    "abs_int_min_refuted"
   ],
   "note": "neg and abs: false on scalar configurations for the most negative 32/64-bit value (signed overflow), proved everywhere else"
  },
  {
   "property": "C11",
   "status": "proved",
   "theorems": [
    "bit_and_spec",
    "bit_or_spec",
    "bit_xor_spec",
    "bit_andnot_spec",
    "bit_not_spec",
    "bit_and_vm_spec",
    "bit_andnot_vm_spec",
    "bit_and_mm_spec",
    "bit_or_mm_spec",
    "bit_xor_mm_spec",
    "bit_andnot_mm_spec",
    "bit_not_m_spec",
    "bit_and_float_spec",
    "bit_or_float_spec",
    "bit_xor_float_spec",
    "bit_andnot_float_spec",
    "bit_not_float_spec",
    "bit_and_float_vm_spec",
    "bit_andnot_float_vm_spec",
    "bit_and_float_mm_spec",
    "bit_or_float_mm_spec",
    "bit_xor_float_mm_spec",
    "bit_andnot_float_mm_spec",
    "bit_not_float_m_spec"
   ],
   "note": ""
  },
  {
   "property": "C22",
   "status": "partial",
   "theorems": [
    "load_spec",
    "load_u_partial",
    "store_spec",
    "stream_spec",
    "store_u_spec",
    "load_store_roundtrip",
    "store_first_spec",
    "store_last_spec",
    "store_masked_spec",
    "store_masked_float_spec",
    "load_u_refuted"
   ],
   "note": "load, store, stream, store_u, store_first, store_last, store_masked for every element type, register size, vector length and address. Missing: load_u on AltiVec without VSX at a 16-byte aligned address needs the next 16 bytes to be accessible too (load_u_refuted shows the documented promise is broken); big-endian POWER and the Intel-compiler variants are not modelled."
  },
  {
   "property": "C24",
   "status": "proved",
   "theorems": [
    "select_best",
    "select_abort",
    "select_total",
    "select_order",
    "select_no_superset",
    "dispatch_concurrent",
    "dispatch_deterministic"
   ],
   "note": ""
  },
  {
   "property": "C25",
   "status": "partial",
   "theorems": [
    "cpuid_reports",
    "cpuid_returns",
    "cpuid_xgetbv_refuted",
    "cpuid_sound_partial",
    "cpuid_complete",
    "cpuid_avx512_refuted",
    "cpuid_fma_refuted"
   ],
   "note": "unconditional soundness is false: the refuted theorems exhibit CPUID responses on which an unusable set is reported; proved under the stated OS/CPU consistency conditions"
  },
  {
   "property": "C26",
   "status": "proved",
   "theorems": [
    "namespace_injective"
   ],
   "note": ""
  },
  {
   "property": "C27",
   "status": "partial",
   "theorems": [
    "closure_spec",
    "null_spec",
    "from_list_spec",
    "from_list_long_refuted",
    "compile_arch_covers",
    "compile_arch_exact",
    "compile_arch_neon64_refuted",
    "compile_arch_required_partial",
    "closure_valid"
   ],
   "note": "the required-architecture word omits NEON_FLT_SP on 64-bit ARM and lists longer than 14 are truncated (both refuted with witnesses); proved otherwise"
  },
  {
   "property": "C28",
   "status": "partial",
   "theorems": [
    "allocate_null",
    "allocate_throws",
    "allocate_spec_partial",
    "allocator_history_partial",
    "allocate_wrap_refuted"
   ],
   "note": "false for n so large that n*sizeof(T)+alignment wraps (refuted with a witness); proved otherwise for every allocation history"
  },
  {
   "property": "C31",
   "status": "partial",
   "theorems": [
    "expr2_comm",
    "expr2_nomask_comm",
    "expr2_nosign_comm",
    "expr2_nomask_nosign_comm",
    "expr_uint_comm",
    "expr2_table_partial",
    "expr2_mask_int_refuted",
    "expr2_shape",
    "expr2_nomask_result",
    "expr2_nosign_result",
    "expr_nomask_nosign_result",
    "expr2_nomask_nosign_refuted",
    "expr_uint_result",
    "bitwise_and_type",
    "bitwise_and_args",
    "bitwise_and_mixed_refuted",
    "bit_or_args",
    "blend_type",
    "blend_args"
   ],
   "note": "the documented table is contradicted for mask|int (refuted); everything else proved"
  },
  {
   "property": "C34",
   "status": "proved",
   "theorems": [
    "to_mask_spec",
    "unmask_spec",
    "to_mask_float_spec",
    "unmask_float_spec"
   ],
   "note": "to_mask requires all-ones/zero lanes, as documented"
  },
  {
   "property": "C40",
   "status": "proved",
   "theorems": [
    "cpuinfo_spec",
    "string_list_spec",
    "string_list_order",
    "cpuinfo_unreadable"
   ],
   "note": ""
  },
  {
   "property": "C42",
   "status": "partial",
   "theorems": [
    "gcc_builtin_sound",
    "gcc_builtin_fma3_refuted",
    "gcc_builtin_complete"
   ],
   "note": "gcc builtin detection never reports FMA3 (refuted completeness); the rest proved"
  },
  {
   "property": "C09",
   "status": "proved",
   "theorems": [
    "shift_l_spec",
    "shift_r_unsigned_spec",
    "shift_r_signed_spec",
    "shift_l_t_spec",
    "shift_r_t_unsigned_spec",
    "shift_r_t_signed_spec",
    "shift_count_out_of_range_refuted"
   ],
   "note": "Run-time and compile-time counts, all widths, all backends, including the emulated 8-bit and signed 64-bit shifts."
  },
  {
   "property": "C39",
   "status": "partial",
   "theorems": [
    "make_const_spec",
    "splat_spec",
    "splat_u8_partial",
    "splat_u8_refuted",
    "splat_n_spec",
    "load_splat_partial",
    "load_splat_refuted"
   ],
   "note": "splat and load_splat of 8-bit values >= 128 on x86 before AVX2 are signed overflow (refuted); load_splat of 64-bit elements on VSX reads 16 bytes (refuted)."
  },
  {
   "property": "C16",
   "status": "partial",
   "theorems": [
    "permute2_spec",
    "permute4_spec",
    "shuffle1_spec",
    "shuffle2_spec",
    "shuffle2_2_spec",
    "shuffle4x2_spec",
    "shuffle2x2_partial",
    "shuffle2x2_refuted",
    "ok2x2_no_x86",
    "shuffle2x2_not_implemented",
    "permute4_64_partial",
    "permute4_64_refuted",
    "shuffle4x2_64_partial",
    "shuffle4x2_64_refuted",
    "shuffle4x2_64_not_implemented"
   ],
   "note": "shuffle2x2 on x86: the proved selector pairs are exactly the correct ones, every other pair is refuted. 64-bit permute4 and shuffle4x2: proved except for vectors of more than two 128-bit registers and some selectors of float64<4> on AVX and AVX-512F, which are refuted (they are wrong in the code)."
  },
  {
   "property": "C17",
   "status": "proved",
   "theorems": [
    "zip_lo_spec",
    "zip_hi_spec",
    "unzip_lo_spec",
    "unzip_hi_spec",
    "unzip_inverts_zip",
    "zip_inverts_unzip"
   ],
   "note": ""
  },
  {
   "property": "C19",
   "status": "proved",
   "theorems": [
    "move_l_spec",
    "move_r_spec",
    "align_spec"
   ],
   "note": ""
  },
  {
   "property": "C08",
   "status": "partial",
   "theorems": [
    "cmp_eq_spec",
    "cmp_neq_partial",
    "cmp_neq_u64_sse2_refuted",
    "cmp_lt_unsigned_partial",
    "cmp_lt_signed_partial",
    "cmp_gt_unsigned_partial",
    "cmp_gt_signed_partial",
    "cmp_le_unsigned_partial",
    "cmp_le_signed_partial",
    "cmp_ge_unsigned_partial",
    "cmp_ge_signed_partial",
    "cmp_order64_missing",
    "cmp_order64_refuted"
   ],
   "note": "integer comparisons: all widths, register sizes, signedness and configurations where an implementation exists; the full claim is false of the code (64-bit != on SSE2..SSSE3, missing 64-bit orders), with witnesses."
  },
  {
   "property": "C41",
   "status": "partial",
   "theorems": [
    "cmp_eq_mask_partial",
    "cmp_neq_mask_partial",
    "cmp_eq_float_mask_spec",
    "cmp_neq_float_mask_spec",
    "cmp_neq_mask_refuted",
    "cmp_eq_mask_refuted"
   ],
   "note": "up to 16 lanes; false above (16-bit k-register operations), with witnesses"
  },
  {
   "property": "C12",
   "status": "partial",
   "theorems": [
    "blend_mask_spec",
    "blend_masks_spec",
    "blend_vec_spec",
    "bit_select_spec",
    "bit_select_mask_spec",
    "bit_select_masks_spec",
    "blend_float_mask_spec",
    "blend_float_masks_spec",
    "blend_float_vec_spec",
    "bit_select_float_spec",
    "bit_select_float_mask_spec",
    "bit_select_float_masks_partial",
    "bit_select_float_masks_refuted"
   ],
   "note": "all element types and mask forms on every configuration; only bit_select of three float64 masks is missing where float64 is scalar code (does not compile), with a witness"
  },
  {
   "property": "C06",
   "status": "proved",
   "theorems": [
    "min_max_documented"
   ],
   "note": "every type, length and configuration the headers name as supported (64-bit elements: AVX2, 64-bit NEON); the min_/max_ theorems also cover 64-bit elements wherever else an implementation exists, min_max64_missing shows that nothing is available on x86 before AVX2 and on 32-bit NEON; floats: C46"
  },
  {
   "property": "C07",
   "status": "proved",
   "theorems": [
    "avg_unsigned_spec",
    "avg_signed_spec",
    "avg_trunc_unsigned_spec",
    "avg_trunc_signed_spec"
   ],
   "note": ""
  },
  {
   "property": "C30",
   "status": "partial",
   "theorems": [
    "bitonic_sort_asc_spec",
    "bitonic_sort_dec_spec",
    "bitonic_sort2_asc_spec",
    "bitonic_sort2_dec_spec",
    "bitonic_sort_float_asc_spec",
    "bitonic_sort_float_dec_spec",
    "bitonic_sort2_float_asc_spec",
    "bitonic_sort2_float_dec_spec",
    "bitonic_sort2_float_bits_refuted"
   ],
   "note": "int32<8> and uint32<8> in full, all backends, via the 0-1 principle; float32<8>: sorted by value and a permutation of the values (denormals flushed on 32-bit NEON) when no lane is NaN; not a permutation of the bit patterns, because x86 min/max lose the sign of zeros (refuted with witness)"
  },
  {
   "property": "C20",
   "status": "partial",
   "theorems": [
    "permute_bytes16_spec",
    "permute_zbytes16_spec",
    "shuffle_bytes16_spec",
    "shuffle_zbytes16_spec",
    "byte_shuffles_sse2_refuted"
   ],
   "note": "All element types and lengths; missing: nothing on backends that have the operation; with SSE2 but not SSSE3 the library reports 'not implemented' (refuted theorem)."
  },
  {
   "property": "C36",
   "status": "proved",
   "theorems": [
    "isnan_spec",
    "isnan2_spec",
    "isfinite_spec",
    "abs_float_spec",
    "neg_float_spec",
    "sign_float_spec",
    "copysign_spec",
    "abs_float_value",
    "neg_float_value"
   ],
   "note": "every lane pattern, element type, register size and configuration. (The doc comment of isfinite states the opposite of what every implementation does.)"
  },
  {
   "property": "C43",
   "status": "partial",
   "theorems": [
    "cmp_eq_float_flush",
    "cmp_neq_float_flush",
    "cmp_lt_float_flush",
    "cmp_le_float_flush",
    "cmp_gt_float_flush",
    "cmp_ge_float_flush",
    "cmp_eq_float_partial",
    "cmp_neq_float_partial",
    "cmp_lt_float_partial",
    "cmp_le_float_partial",
    "cmp_gt_float_partial",
    "cmp_ge_float_partial",
    "cmp_eq_float_ftz_refuted"
   ],
   "note": "IEEE wherever the vector unit does not flush denormals (ftz = false); on 32-bit ARM NEON and AltiVec without VSX the exact behaviour with flushing is proved (_flush) and the IEEE claim refuted with a witness"
  },
  {
   "property": "C44",
   "status": "partial",
   "theorems": [
    "add_float_flush",
    "sub_float_flush",
    "add_float_partial",
    "sub_float_partial",
    "add_float_nearest"
   ],
   "note": "round to nearest even, as in the default environment; which NaN results is not modelled; flushing configurations are described exactly by the _flush theorems"
  },
  {
   "property": "C32",
   "status": "partial",
   "theorems": [
    "to_int_widen_spec_partial",
    "to_int_widen_avx512f_refuted"
   ],
   "note": "all lengths, all source/target widths and signedness, every configuration; the only excluded case (AVX512F without BW, 8/16-bit vectors longer than 512 bits to 64 bits) is false of the code and refuted with a witness"
  },
  {
   "property": "C21",
   "status": "partial",
   "theorems": [
    "split_int_spec",
    "split_flt_spec",
    "combine_int_spec",
    "combine_flt_spec",
    "combine_split_roundtrip",
    "insert_spec",
    "extract_partial",
    "extract_insert",
    "extract_i64_refuted"
   ],
   "note": "split, combine and insert for every length; extract except signed 64-bit elements on MSA, where it is wrong (refuted)"
  },
  {
   "property": "C29",
   "status": "partial",
   "theorems": [
    "for_each_partial",
    "for_each_i64_refuted"
   ],
   "note": "every element once, in order, all lengths and backends, except signed 64-bit elements on MSA (refuted: wrong values)"
  },
  {
   "property": "C04",
   "status": "partial",
   "theorems": [
    "mul_lo16_spec_partial",
    "mul_lo16_simd_spec",
    "mul_lo32_spec",
    "mul_lo16_null_refuted"
   ],
   "note": "32-bit lanes: unconditional. 16-bit lanes: every vectorised backend unconditional; on the null backend uint16 operands are promoted to int and a product above INT_MAX is undefined behaviour (refuted with a witness), so the theorem there assumes products that fit"
  },
  {
   "property": "C05",
   "status": "partial",
   "theorems": [
    "mul_hi_unsigned_spec",
    "mul_hi_signed_spec",
    "mull16_spec",
    "mull32_unsigned_spec",
    "mull32_signed_spec_partial",
    "mull32_signed_sse2_refuted",
    "mull32_signed_altivec_refuted",
    "mull32_signed_avx512_refuted"
   ],
   "note": "mul_hi, mull of 16-bit lanes and of unsigned 32-bit lanes: every configuration and length. mull of signed 32-bit lanes: everywhere it exists; not implemented before SSE4.1 / VSX 2.07, endless recursion for int32<16> on AVX-512F (witnesses)"
  },
  {
   "property": "C45",
   "status": "proved",
   "theorems": [
    "bit_cast_spec",
    "bit_cast_round_trip"
   ],
   "note": "all vector types and lengths; casts from and to masks are not modelled"
  },
  {
   "property": "C37",
   "status": "partial",
   "theorems": [
    "program_spec",
    "programs_split",
    "shuffle_program_spec",
    "shuffle_programs_split",
    "float_program_spec",
    "float_programs_split",
    "float_program_any",
    "float_programs_split_any"
   ],
   "note": "for every straight-line program over add/sub/mul_lo/bitwise/shift/min/max/avg/saturating/compare/blend/mask operations and constants on integer vectors, every length and configuration; and for programs mixing float32 (or float64) vectors, integer vectors of the same lane width and masks (arithmetic, square root, sign and bitwise operations, comparisons, NaN tests, blends, casts, int32 to float32) division, min and max, on every configuration including the units that flush denormals (float_program_any, float_programs_split_any); and programs that also use neg, abs, popcnt, mul_hi and move lanes (move_l, move_r, permute2, permute4, splat, zip, unzip, align, shuffle1, shuffle2) on integer vectors (shuffle_program_spec, shuffle_programs_split); a final reduction is covered by reduced_program_spec (C38); conversions to other lane widths are not part of the program languages"
  },
  {
   "property": "C38",
   "status": "partial",
   "theorems": [
    "programs_are_portable",
    "program_spec",
    "reduced_programs_are_portable",
    "reduced_program_spec",
    "shuffle_programs_are_portable",
    "shuffle_program_spec",
    "float_programs_are_portable",
    "float_program_spec",
    "float_program_any",
    "ieee_unit_ops"
   ],
   "note": "any two valid configurations compute the same lanes for every program over the integer operations and shuffles listed under C37; float programs: any two configurations whose units do not flush denormals; what every other configuration computes is stated exactly (float_program_any); reduced_programs_are_portable: a program followed by reduce_or/and/min/max/add/popcnt gives the same number everywhere; operators that do not exist everywhere (64-bit min/max/order comparisons, 16-bit mul_lo) are excluded; see the individual claims for the deviations found"
  },
  {
   "property": "C18",
   "status": "proved",
   "theorems": [
    "transpose2_spec",
    "transpose4_spec",
    "transpose2_involutive"
   ],
   "note": "every element type and register width the API offers, all backends; scalar version modelled swap by swap"
  },
  {
   "property": "C23",
   "status": "partial",
   "theorems": [
    "load_packed2_spec",
    "load_packed3_spec",
    "load_packed4_spec",
    "store_packed3_spec",
    "store_packed4_spec",
    "store_packed2_partial",
    "packed_roundtrip",
    "store_packed2_refuted"
   ],
   "note": "all element types, register widths, vector lengths, addresses, memories and backends.  store_packed2 needs a 32-byte aligned address with 128-bit registers outside NULL/NEON64, more than documented (store_packed2_refuted); the big-endian AltiVec variants are not modelled"
  },
  {
   "property": "C33",
   "status": "partial",
   "theorems": [
    "to_int_narrow_partial",
    "to_uint8_u32_avx2_refuted",
    "to_uint8_u32_avx512f_refuted",
    "to_uint8_u64_avx512f_refuted"
   ],
   "note": "to_int8/to_int16/to_int32 of wider vectors truncate every lane, on every backend and vector length, except to_uint8 of 32-bit elements on AVX2 (N>=32) and to_uint8 of 32/64-bit elements on AVX512F without BW (N>=64), where the refutations show the code is wrong."
  },
  {
   "property": "C13",
   "status": "proved",
   "theorems": [
    "popcnt_spec"
   ],
   "note": "Every width, register size, vector length and configuration; SWAR, POPCNT, VCNT, PSADBW paths and the scalar code."
  },
  {
   "property": "C14",
   "status": "partial",
   "theorems": [
    "reduce_or_spec",
    "reduce_and_spec",
    "reduce_min_partial",
    "reduce_max_partial",
    "reduce_min_int64_neon32_refuted",
    "reduce_max_uint64_msa_refuted",
    "reduce_min_int64_msa_refuted",
    "reduce_add_32_64_spec",
    "reduce_add_8_16_partial",
    "reduce_add_u8_avx512bw_refuted",
    "reduce_popcnt_spec",
    "reduce_mul_partial",
    "reduce_mul_16_avx512bw_refuted",
    "reduce_mul_32_avx512f_refuted",
    "reduce_mul_16_null_refuted"
   ],
   "note": "reduce_or/and/min/max/add/mul/popcnt of integer vectors of any number of registers. Missing: float reductions; where the library does not compile or is wrong (the _refuted theorems) the _partial theorems exclude the case; for reduce_add of 8/16-bit vectors longer than 2^13 registers the accumulators of the scalar and AltiVec code may overflow; signed 16-bit reduce_mul on scalar/AltiVec needs that no int32_t product overflows."
  },
  {
   "property": "C35",
   "status": "proved",
   "theorems": [
    "test_bits_any_spec",
    "test_bits_any_float_spec",
    "extract_bits_any_spec",
    "extract_bits_spec",
    "extract_bits_any_differs"
   ],
   "note": "test_bits_any (integer and float vectors, any number of registers), extract_bits_any (16- and 32-byte vectors, all widths; lanes all zeros or all ones as documented) and extract_bits<id>, all instruction sets"
  },
  {
   "property": "C10",
   "status": "proved",
   "theorems": [
    "shift_l_by_vector_spec",
    "shift_r_by_vector_unsigned_spec",
    "shift_r_by_vector_signed_spec",
    "shift_by_vector_unavailable",
    "shift_by_vector_out_of_range_refuted"
   ],
   "note": "Counts below the lane width; every instruction set and width for which the operation exists, with all emulations (multiplication by a looked-up power of two, 16-bit shifts of bytes, four uniform shifts)"
  },
  {
   "property": "C15",
   "status": "partial",
   "theorems": [
    "scalar_unary_defined",
    "scalar_binary_defined",
    "scalar_blend_defined",
    "scalar_reduce_defined_partial",
    "scalar_backend_ub_refuted"
   ],
   "note": "on the no-SIMD backend a call has defined behaviour exactly if its lanes are safe (iff for every unary and binary operation); the claim as stated is false: neg/abs of INT_MIN, 16-bit mul_lo with products above INT_MAX, 16-bit signed reduce_mul"
  },
  {
   "property": "C46",
   "status": "partial",
   "theorems": [
    "min_float_partial",
    "max_float_partial",
    "clamp_float_partial",
    "min_float_flush",
    "max_float_flush",
    "min_float_ftz_refuted",
    "clamp_partial"
   ],
   "note": "float min/max/clamp by value when no operand is NaN; on 32-bit NEON denormals are flushed (refuted, and described exactly by the _flush theorems); integer clamp wherever min/max exist; results for NaN operands differ between instruction sets and are not claimed"
  },
  {
   "property": "C47",
   "status": "partial",
   "theorems": [
    "mul_float_partial",
    "mul_float_flush",
    "mul_float_any",
    "mul_float_nearest",
    "mul_float_altivec_refuted"
   ],
   "note": "correctly rounded wherever the unit handles denormals; on units that flush denormals the exact result is stated (mul_float_flush); AltiVec without VSX multiplies by vec_madd(a,b,+0) and loses the sign of zero products (refuted)"
  },
  {
   "property": "C48",
   "status": "partial",
   "theorems": [
    "div_float_partial",
    "sqrt_float_partial",
    "div_float_any",
    "sqrt_float_any",
    "div_float_nearest",
    "sqrt_float_nearest",
    "sqrt_float_zero_refuted"
   ],
   "note": "native division and square root; float32 on 32-bit ARM and AltiVec uses Newton steps on hardware estimates (the exact result is stated over an arbitrary estimate: div_float_any, sqrt_float_any; not correctly rounded; sqrt(0) is NaN there: refuted)"
  },
  {
   "property": "C49",
   "status": "partial",
   "theorems": [
    "fmadd_float_partial",
    "fmsub_float_partial",
    "fmadd_float_msa_partial",
    "fma_float_nearest",
    "fmadd_float_neon",
    "fmsub_float_neon",
    "fmsub_float_msa",
    "fmadd_float_neon_refuted",
    "fmsub_float_msa_refuted"
   ],
   "note": "right on scalar, FMA3, FMA4, AVX512F (and MSA fmadd); 64-bit ARM computes a+b*c and a-b*c, MSA fmsub computes c-a*b (refuted, and the actual results stated exactly)"
  },
  {
   "property": "C50",
   "status": "partial",
   "theorems": [
    "to_int32_float_spec",
    "to_int32_float_x86_spec",
    "to_int32_float_saturates",
    "to_uint32_float_spec",
    "to_uint32_float_overflow_refuted",
    "to_float32_int_spec",
    "f_of_int_nearest",
    "f_of_int_exact",
    "int32_float_round_trip",
    "to_float32_uint_partial",
    "to_float32_uint_error",
    "to_float32_uint_refuted",
    "to_float32_small_spec"
   ],
   "note": "float32 to and from 8/16/32-bit integers on every architecture; uint32 to float32 rounds twice on x86 before AVX512 (refuted, error bound proved); the documented 0x80000000 for out-of-range to_uint32 is refuted; float64 conversions are not covered"
  },
  {
   "property": "C51",
   "status": "partial",
   "theorems": [
    "trunc_float32_spec",
    "floor_float32_partial",
    "ceil_float32_partial",
    "trunc_float64_partial",
    "floor_float64_partial",
    "ceil_float64_partial",
    "floor_float32_refuted",
    "trunc_float64_refuted",
    "floor_float64_refuted",
    "ceil_float64_refuted"
   ],
   "note": "trunc float32 is right everywhere; the emulated float32 floor/ceil and float64 trunc miss exactly one magnitude (8388607.5, 4503599627370495.5: refuted); float64 floor/ceil are wrong on SSE2-SSSE3 and MSA and float64 floor on 64-bit ARM (refuted), right elsewhere"
  },
  {
   "property": "C52",
   "status": "partial",
   "theorems": [
    "reduce_add_float_flush",
    "reduce_add_float_partial",
    "reduce_add_float_exact",
    "reduce_mul_float_partial",
    "reduce_mul_float_exact",
    "reduce_min_float_flush",
    "reduce_max_float_flush",
    "reduce_min_float_partial",
    "reduce_max_float_partial",
    "reduce_add_float_portable_refuted",
    "reduce_min_float_flush_refuted"
   ],
   "note": "exactness for integers on every architecture; the bitwise statements for architectures without flush-to-zero, the _flush statements for all; the order of additions depends on the architecture (refuted as portable); alignment of the compiler-provided stack buffer is a hypothesis (fp)"
  },
  {
   "property": "C53",
   "status": "partial",
   "theorems": [
    "div_p_partial",
    "div_p_null_spec",
    "div_p_simd_spec",
    "div_p_wide_divisor_refuted",
    "div_p_zero_refuted"
   ],
   "note": "for divisors of at most P bits on every configuration; the SIMD code uses the bits of the divisor above P (refuted) and a zero divisor is UB without SIMD and 2^P-1 with it"
  },
  {
   "property": "C54",
   "status": "partial",
   "theorems": [
    "to_float64_float_spec",
    "to_float64_int_spec",
    "to_float64_uint_spec",
    "to_float64_small_spec",
    "to_float64_int64_partial",
    "to_float64_int64_refuted",
    "to_float32_double_partial",
    "to_float32_double_avx512_spec",
    "to_float32_double_refuted",
    "float64_round_trip_partial",
    "to_float32_double_msa_spec",
    "to_float32_double_msa_refuted",
    "to_int32_double_spec",
    "to_uint32_double_partial",
    "to_uint32_double_refuted",
    "to_int32_double_x86_spec",
    "to_int32_double_neon64_spec",
    "to_uint32_double_neon64_spec",
    "to_int32_double_vsx_msa_spec",
    "to_int32_double_overflow_refuted"
   ],
   "note": "to_float64 of float32 and of 8/16/32-bit integers hold everywhere; to_float32 truncates on AVX512F for results of 256 bits or more (refuted) and exchanges pairs on MSA (refuted); int64 to float64 is missing for narrow vectors with AVX512DQ without VL; to_uint32 is not implemented on SSE2..AVX2; VSX and MSA do not saturate"
  },
  {
   "property": "C55",
   "status": "partial",
   "theorems": [
    "to_int64_double_partial",
    "to_int64_double_x86_spec",
    "to_uint64_double_x86_spec",
    "to_uint64_double_x86_refuted",
    "to_int64_double_saturating_spec",
    "to_int64_double_refuted",
    "to_int64_float_partial",
    "to_uint64_float_partial",
    "to_int64_float_refuted",
    "to_int64_float_saturating_spec",
    "to_float32_int64_partial",
    "to_float32_int64_small_spec",
    "to_float32_int64_wide_spec",
    "to_float32_int64_msa_spec",
    "to_float32_int64_refuted",
    "int64_round_trip_partial"
   ],
   "note": "the conversions to integers hold where implemented (not on SSE2..AVX512F, and not for 8 floats with AVX512DQ without VL); without SIMD uint64 of a float >= 2^63 is undefined behaviour; out of range AVX512DQ gives all ones for uint64_t, against the documentation; to_float32 rounds twice except where direct (refuted), truncates for long vectors on AVX512DQ, and swaps pairs on MSA"
  },
  {
   "property": "C56",
   "status": "partial",
   "theorems": [
    "to_small_float_partial",
    "to_small_double_partial",
    "to_small_float_x86_partial",
    "to_small_double_x86_partial",
    "to_small_float_saturating_partial",
    "to_small_float_refuted"
   ],
   "note": "holds except where the integer narrowing itself is broken (narrow_missing: 8-bit results of 256 bits and more on AVX2 and AVX512F without BW, refuted under C33); beyond int32_t the code without SIMD is undefined behaviour"
  },
  {
   "property": "C58",
   "status": "proved",
   "theorems": [
    "make_float64_spec",
    "make_float32_spec",
    "make_int_float_spec"
   ],
   "note": "every number of values, every vector length and configuration; as the C++ conversion from double rounds, element values are stated through the spec relation narrowed (nearest float32). make_float assigned to integer vectors and make_int assigned to float vectors are not modelled"
  },
  {
   "property": "C59",
   "status": "proved",
   "theorems": [
    "add_float_flush",
    "sub_float_flush",
    "mul_float_any",
    "div_float_any",
    "sqrt_float_any",
    "cmp_eq_float_flush",
    "cmp_neq_float_flush",
    "cmp_lt_float_flush",
    "cmp_le_float_flush",
    "cmp_gt_float_flush",
    "cmp_ge_float_flush",
    "min_float_flush",
    "max_float_flush",
    "float_program_any",
    "float_programs_split_any",
    "ieee_unit_ops"
   ],
   "note": "every configuration; the estimates of the processor are an arbitrary function; NaN payloads are not modelled"
  },
  {
   "property": "C60",
   "status": "proved",
   "theorems": [
    "kernel_spec",
    "kernels_are_portable"
   ],
   "note": "arrays aligned to 64 bytes; integer programs over the operators listed under C37 (the operators that exist for the width on every instruction set)"
  },
  {
   "property": "C57",
   "status": "partial",
   "theorems": [
    "log2_special_partial",
    "log2_exact",
    "log2_positive_finite_exact",
    "log2_accuracy_partial",
    "log2_positive_finite_accuracy_partial",
    "log2_denormal_refuted"
   ],
   "note": "special values, the exact result and the accuracy bound |result - log2 x| <= 1/100 for positive normal lanes, on every configuration that does not flush denormals; the accuracy theorems use the four standard axioms behind Coq Reals; denormal arguments get a result near -127 (refuted)"
  }
 ]
}