(** algorithm/bitonic_sort.h and the 128-bit part shuffles it uses. *)
From Verif Require Export Model.ShufApi2 Model.MinMax.

(** _mm256_permute2x128_si256 / permute2f128 for the selector bytes used here (zeroing bits
    clear): each half is one of the four 128-bit parts of a and b. *)
Definition mm256_permute2x128 (imm a b : Z) : Z :=
  let part c := if c =? 0 then lane 128 0 a else if c =? 1 then lane 128 1 a
                else if c =? 2 then lane 128 0 b else lane 128 1 b in
  pack 128 256 (fun i => if i =? 0 then part (imm mod 4) else part (imm / 16 mod 4)).
(** detail/insn/shuffle128.h:107-147 (shuffle1_128 on 256-bit vectors): one register when
    [s = R256] (AVX2 for integers, AVX for floats), else two 128-bit registers *)
Definition shuffle1_128 (s : rsz) (s0 s1 : Z) (va vb : vec) : res vec :=
  match s, va, vb with
  | R256, [a], [b] => Ok [mm256_permute2x128 (Z.shiftl (s1 + 2) 4 + s0) a b]
  | R128, [a0; a1], [b0; b1] => Ok [nth (Z.to_nat s0) [a0; a1] 0; nth (Z.to_nat s1) [b0; b1] 0]
  | _, _, _ => NotImpl
  end.

Section Bitonic.
  (** the element type's operations: min, max, permute4<...>, shuffle4x2<...>, shuffle1_128<...> *)
  Variables (mn mx : vec -> vec -> res vec) (p4 : Z -> Z -> Z -> Z -> vec -> res vec)
            (s4x2 : Z -> Z -> Z -> Z -> vec -> vec -> res vec) (s128 : Z -> Z -> vec -> vec -> res vec).
  (** bitonic_sort.h:19-30 *)
  Definition sort_4lane_2el_asc_2el_dec (aw : vec) : res vec :=
    let* swapped := p4 1 0 3 2 aw in
    let* res_min := mn aw swapped in
    let* res_max := mx aw swapped in
    s4x2 1 4 7 2 res_min res_max.
  (** bitonic_sort.h:32-43 *)
  Definition sort_4lane_2el_asc_2el_asc (aw : vec) : res vec :=
    let* swapped := p4 1 0 3 2 aw in
    let* res_min := mn aw swapped in
    let* res_max := mx aw swapped in
    s4x2 1 4 2 7 res_min res_max.
  (** bitonic_sort.h:45-56 *)
  Definition sort_4lane_2el_dec_2el_dec (aw : vec) : res vec :=
    let* swapped := p4 1 0 3 2 aw in
    let* res_max := mx aw swapped in
    let* res_min := mn aw swapped in
    s4x2 1 4 2 7 res_max res_min.
  (** bitonic_sort.h:58-68 *)
  Definition sort_4lane_corresponding_2el_asc (aw : vec) : res vec :=
    let* swapped := p4 2 3 0 1 aw in
    let* res_min := mn aw swapped in
    let* res_max := mx aw swapped in
    s4x2 0 1 4 5 res_min res_max.
  (** bitonic_sort.h:70-80 *)
  Definition sort_4lane_corresponding_2el_dec (aw : vec) : res vec :=
    let* swapped := p4 2 3 0 1 aw in
    let* res_max := mx aw swapped in
    let* res_min := mn aw swapped in
    s4x2 0 1 4 5 res_max res_min.
  (** bitonic_sort.h:82-93 *)
  Definition sort_8lane_corresponding_4el_asc (aw : vec) : res vec :=
    let* lo := s128 0 0 aw aw in
    let* hi := s128 1 1 aw aw in
    let* res_min := mn lo hi in
    let* res_max := mx lo hi in
    s128 0 0 res_min res_max.
  (** bitonic_sort.h:95-106 *)
  Definition sort_8lane_corresponding_4el_dec (aw : vec) : res vec :=
    let* lo := s128 0 0 aw aw in
    let* hi := s128 1 1 aw aw in
    let* res_max := mx lo hi in
    let* res_min := mn lo hi in
    s128 0 0 res_max res_min.
  (** bitonic_sort.h:108-116 *)
  Definition reverse_8lane_top4 (aw : vec) : res vec :=
    let* reversed := p4 3 2 1 0 aw in s128 0 1 aw reversed.
  (** bitonic_sort.h:118-126 *)
  Definition reverse_8lane_bottom4 (aw : vec) : res vec :=
    let* reversed := p4 3 2 1 0 aw in s128 0 1 reversed aw.
  (** bitonic_sort.h:128-138 *)
  Definition sort_8lane_4el_asc_4el_dec (aw : vec) : res vec :=
    let* r1 := sort_4lane_2el_asc_2el_dec aw in
    let* r2 := sort_4lane_corresponding_2el_asc r1 in
    let* r3 := sort_4lane_2el_asc_2el_asc r2 in
    reverse_8lane_top4 r3.
  (** bitonic_sort.h:140-150 *)
  Definition sort_8lane_4el_dec_4el_asc (aw : vec) : res vec :=
    let* r1 := sort_4lane_2el_asc_2el_dec aw in
    let* r2 := sort_4lane_corresponding_2el_asc r1 in
    let* r3 := sort_4lane_2el_asc_2el_asc r2 in
    reverse_8lane_bottom4 r3.
  (** bitonic_sort.h:152-160 *)
  Definition finalize_asc (aw : vec) : res vec :=
    let* r1 := sort_8lane_corresponding_4el_asc aw in
    let* r2 := sort_4lane_corresponding_2el_asc r1 in
    sort_4lane_2el_asc_2el_asc r2.
  (** bitonic_sort.h:162-170 *)
  Definition finalize_dec (aw : vec) : res vec :=
    let* r1 := sort_8lane_corresponding_4el_dec aw in
    let* r2 := sort_4lane_corresponding_2el_dec r1 in
    sort_4lane_2el_dec_2el_dec r2.
  (** bitonic_sort.h:176-187; the result is the new value of the reference argument *)
  Definition bsort_asc (a0 : vec) : res vec :=
    let* r := sort_8lane_4el_asc_4el_dec a0 in finalize_asc r.
  Definition bsort_dec (a0 : vec) : res vec :=
    let* r := sort_8lane_4el_dec_4el_asc a0 in finalize_dec r.
  (** bitonic_sort.h:190-208 *)
  Definition bsort2_asc (a0 a1 : vec) : res (vec * vec) :=
    let* r0 := sort_8lane_4el_asc_4el_dec a0 in
    let* r0 := finalize_asc r0 in
    let* r1 := sort_8lane_4el_asc_4el_dec a1 in
    let* r1 := finalize_dec r1 in
    let* res_max := mx r0 r1 in
    let* res_min := mn r0 r1 in
    let* r0 := finalize_asc res_min in
    let* r1 := finalize_asc res_max in
    Ok (r0, r1).
  (** bitonic_sort.h:210-228 *)
  Definition bsort2_dec (a0 a1 : vec) : res (vec * vec) :=
    let* r0 := sort_8lane_4el_dec_4el_asc a0 in
    let* r0 := finalize_dec r0 in
    let* r1 := sort_8lane_4el_dec_4el_asc a1 in
    let* r1 := finalize_asc r1 in
    let* res_max := mx r0 r1 in
    let* res_min := mn r0 r1 in
    let* r0 := finalize_dec res_max in
    let* r1 := finalize_dec res_min in
    Ok (r0, r1).
End Bitonic.

(** The instances for int32<8> (sg = true) and uint32<8> (sg = false); the vector is one
    256-bit register with AVX2, else two 128-bit registers (types/int32x8.h). *)
Definition s32x8 (A : arch) : rsz := if use_avx2 A then R256 else R128.
Definition bitonic_sort_asc A (sg : bool) : vec -> res vec :=
  let s := s32x8 A in
  bsort_asc (min A sg W32 s) (max A sg W32 s) (permute4 A I32 s) (shuffle4x2 A I32 s) (shuffle1_128 s).
Definition bitonic_sort_dec A (sg : bool) : vec -> res vec :=
  let s := s32x8 A in
  bsort_dec (min A sg W32 s) (max A sg W32 s) (permute4 A I32 s) (shuffle4x2 A I32 s) (shuffle1_128 s).
Definition bitonic_sort2_asc A (sg : bool) : vec -> vec -> res (vec * vec) :=
  let s := s32x8 A in
  bsort2_asc (min A sg W32 s) (max A sg W32 s) (permute4 A I32 s) (shuffle4x2 A I32 s) (shuffle1_128 s).
Definition bitonic_sort2_dec A (sg : bool) : vec -> vec -> res (vec * vec) :=
  let s := s32x8 A in
  bsort2_dec (min A sg W32 s) (max A sg W32 s) (permute4 A I32 s) (shuffle4x2 A I32 s) (shuffle1_128 s).
