(** Narrowing integer conversions: simdpp/detail/insn/conv_shrink_to_int{8,16,32}.h,
    simdpp/core/to_int{8,16,32}.h.  An argument of several registers is the list of them;
    casts between vector types with the same registers are the identity. *)
From Verif Require Export Model.ConvApi Model.Shuf64 Model.Unzip.

Definition one (v : vec) (f : Z -> res Z) : res Z := match v with [a] => f a | _ => UB end.
Definition two (v : vec) (f : Z -> Z -> res Z) : res Z := match v with [a; b] => f a b | _ => UB end.
Definition four (v : vec) (f : Z -> Z -> Z -> Z -> res Z) : res Z := match v with [a; b; c; d] => f a b c d | _ => UB end.
Definition eight (v : vec) (f : Z -> Z -> Z -> Z -> Z -> Z -> Z -> Z -> res Z) : res Z :=
  match v with [a; b; c; d; e; g; h; i] => f a b c d e g h i | _ => UB end.
(** VPMOVWB, VPMOVDB, ... of an R-bit register into an R'-bit one: truncation, zeros above *)
Definition mm_trunc w v R R' a := pack v R' (fun i => if i <? R / w then lane w i a else 0).
(** for (i) r.el(i) = uintN_t(a.vec(i/n).el(i%n)) *)
Definition null_narrow (w w' : Z) (va : vec) : res Z :=
  let n := 128 / w in
  nloop (ty false w') 128 (fun i => Ok (ccast (ty false w') (el (ty false w) (nth (Z.to_nat (i / n)) va 0) (i mod n)))).

Section N.
  Variable A : arch.
  (** conv_shrink_to_int32.h: 26-61, 64-76, 80-85 *)
  Definition nar_64_32 (s : rsz) (va : vec) : res Z :=
    match s with
    | R128 =>
        if use_null A then null_narrow 64 32 va
        else if use_avx512vl A then one va (fun a => Ok (mm_trunc 64 32 256 128 a))
        else if use_avx2 A then one va (fun a =>
          let* t := i_permute4 A I32 R256 0 2 0 2 a in let* t := i_permute4_64 A R256 0 2 0 2 t in Ok (mm_extract128 0 t))
        else two va (fun a b =>
          if use_neon A then Ok (vcombine (vmovn 32 a) (vmovn 32 b))
          else if use_vsx207 A then Ok (vec_pack 32 a b)
          else if use_sse2 A || use_msa A || use_altivec A then i_unzip_lo A I32 R128 a b else UB)
    | R256 =>
        if use_avx2 A then
          if use_avx512f A then one va (fun a => Ok (mm_trunc 64 32 512 256 a))
          else two va (fun a b =>
            let* b0 := i_permute4 A I32 R256 0 2 0 2 a in let* b1 := i_permute4 A I32 R256 0 2 0 2 b in
            let* b0 := i_zip A I64 R256 false b0 b1 in i_permute4_64 A R256 0 2 1 3 b0)
        else NotImpl
    | R512 =>
        if use_avx512f A then two va (fun a b => Ok (mm_combine256 (mm_trunc 64 32 512 256 a) (mm_trunc 64 32 512 256 b)))
        else NotImpl
    end.
  (** to_narrow halves: conv_shrink_to_int16.h:28-65, 68-90, 94-99; conv_shrink_to_int8.h:31-69,
      72-87, 91-96.  [w] is the width of the result.  Where uint16<32> is two registers and
      uint32<16> one (int16.h:72-80), the casts split and join the register. *)
  Definition masked (s : rsz) (k : Z) (sels : list Z) (a : Z) : res Z := permute_mask A s k sels a.
  Definition nar_32_16 (s : rsz) (va : vec) : res Z :=
    let sel s := masked s 2 [0; 2; 4; 6; 0; 0; 0; 0] in
    match s with
    | R128 =>
        if use_null A then null_narrow 32 16 va
        else if use_avx512vl A then one va (fun a => Ok (mm_trunc 32 16 256 128 a))
        else if use_ssse3 A then
          if use_avx2 A then one va (fun a =>
            let* t := sel R256 a in let* t := i_permute4_64 A R256 0 2 0 2 t in Ok (mm_extract128 0 t))
          else two va (fun a b => let* a := sel R128 a in let* b := sel R128 b in i_zip A I64 R128 false a b)
        else two va (fun a b =>
          if use_neon A then Ok (vcombine (vmovn 16 a) (vmovn 16 b))
          else if use_altivec A then Ok (vec_pack 16 a b)
          else if use_sse2 A || use_msa A then i_unzip_lo A I16 R128 a b else UB)
    | R256 =>
        let tail x y := let* t := i_zip A I64 R256 false x y in i_permute4_64 A R256 0 2 1 3 t in
        if use_avx2 A then
          if use_avx512bw A then one va (fun a => Ok (mm_trunc 32 16 512 256 a))
          else if use_avx512f A then one va (fun a =>
            let* x := sel R256 (mm_extract256 0 a) in let* y := sel R256 (mm_extract256 1 a) in
            let a64 := mm_combine256 x y in tail (mm_extract256 0 a64) (mm_extract256 1 a64))
          else two va (fun a b => let* x := sel R256 a in let* y := sel R256 b in tail x y)
        else NotImpl
    | R512 =>
        if use_avx512bw A then two va (fun a b => Ok (mm_combine256 (mm_trunc 32 16 512 256 a) (mm_trunc 32 16 512 256 b)))
        else NotImpl
    end.
  Definition nar_16_8 (s : rsz) (va : vec) : res Z :=
    let sel s := masked s 1 [0; 2; 4; 6; 8; 10; 12; 14; 0; 0; 0; 0; 0; 0; 0; 0] in
    match s with
    | R128 =>
        if use_null A then null_narrow 16 8 va
        else if use_avx512vl A then one va (fun a => Ok (mm_trunc 16 8 256 128 a))
        else if use_ssse3 A then
          if use_avx2 A then one va (fun a =>
            let* t := sel R256 a in let* t := i_permute4_64 A R256 0 2 0 2 t in Ok (mm_extract128 0 t))
          else two va (fun a b => let* a := sel R128 a in let* b := sel R128 b in i_zip A I64 R128 false a b)
        else two va (fun a b =>
          if use_neon A then Ok (vcombine (vmovn 8 a) (vmovn 8 b))
          else if use_altivec A then Ok (vec_pack 8 a b)
          else if use_sse2 A || use_msa A then i_unzip_lo A I8 R128 a b else UB)
    | R256 =>
        if use_avx2 A then
          if use_avx512bw A then one va (fun a => Ok (mm_trunc 16 8 512 256 a))
          else two va (fun a b => let* x := sel R256 a in let* y := sel R256 b in i_shuffle4x2_u64 A R256 0 2 4 6 x y)
        else NotImpl
    | R512 =>
        if use_avx512bw A then two va (fun a b => Ok (mm_combine256 (mm_trunc 16 8 512 256 a) (mm_trunc 16 8 512 256 b)))
        else NotImpl
    end.
  (** conv_shrink_to_int16.h: 139-177, 180-201, 205-212 *)
  Definition nar_64_16 (s : rsz) (va : vec) : res Z :=
    let sel s := masked s 2 [0; 4; 0; 0; 0; 0; 0; 0] in
    match s with
    | R128 =>
        if use_null A then null_narrow 64 16 va
        else if use_avx512f A then one va (fun a => Ok (mm_trunc 64 16 512 128 a))
        else if use_avx2 A then two va (fun a b =>
          let* x := sel R256 a in let* y := sel R256 b in let* t := i_zip A I32 R256 false x y in
          let* t := i_permute4_64 A R256 0 2 1 3 t in i_permute4 A I32 R128 0 2 1 3 (mm_extract128 0 t))
        else if use_ssse3 A then four va (fun a b c d =>
          let* a := sel R128 a in let* b := sel R128 b in let* c := sel R128 c in let* d := sel R128 d in
          let* x := i_zip A I32 R128 false a b in let* y := i_zip A I32 R128 false c d in i_zip A I64 R128 false x y)
        else four va (fun a b c d => (* i_to_uint32(uint64<8>) register by register, then i_to_uint16 *)
          let* x := nar_64_32 R128 [a; b] in let* y := nar_64_32 R128 [c; d] in nar_32_16 R128 [x; y])
    | R256 =>
        if use_avx2 A then
          if use_avx512f A then two va (fun a b => Ok (mm_combine128 (mm_trunc 64 16 512 128 a) (mm_trunc 64 16 512 128 b)))
          else four va (fun a b c d =>
            let* a := sel R256 a in let* b := sel R256 b in let* c := sel R256 c in let* d := sel R256 d in
            let* x := i_zip A I32 R256 false a b in let* y := i_zip A I32 R256 false c d in
            let* t := i_zip A I64 R256 false x y in
            let* t := i_permute4_64 A R256 0 2 1 3 t in i_permute4 A I32 R256 0 2 1 3 t)
        else NotImpl
    | R512 =>
        if use_avx512bw A then four va (fun a b c d =>
          let t := mm_trunc 64 16 512 128 in Ok (mm_combine256 (mm_combine128 (t a) (t b)) (mm_combine128 (t c) (t d))))
        else NotImpl
    end.
  (** conv_shrink_to_int8.h: 130-165, 168-196, 200-207 *)
  Definition nar_32_8 (s : rsz) (va : vec) : res Z :=
    let sel s := masked s 1 [0; 4; 8; 12; 0; 0; 0; 0; 0; 0; 0; 0; 0; 0; 0; 0] in
    let tail b0 b1 b2 b3 := let* x := i_zip A I32 R128 false b0 b1 in let* y := i_zip A I32 R128 false b2 b3 in
                            i_zip A I64 R128 false x y in
    match s with
    | R128 =>
        if use_null A then null_narrow 32 8 va
        else if use_avx512f A then one va (fun a => Ok (mm_trunc 32 8 512 128 a))
        else if use_ssse3 A then
          if use_avx2 A then two va (fun a b =>
            let* x := sel R256 a in let* y := sel R256 b in
            let '(b0, b1) := i_split1 R256 x in let '(b2, b3) := i_split1 R256 y in tail b0 b1 b2 b3)
          else four va (fun a b c d =>
            let* a := sel R128 a in let* b := sel R128 b in let* c := sel R128 c in let* d := sel R128 d in tail a b c d)
        else four va (fun a b c d => (* i_to_uint16(uint32<16>) register by register, then i_to_uint8 *)
          let* x := nar_32_16 R128 [a; b] in let* y := nar_32_16 R128 [c; d] in nar_16_8 R128 [x; y])
    | R256 =>
        if use_avx2 A then
          if use_avx512f A then two va (fun a b => Ok (mm_combine128 (mm_trunc 32 8 512 128 a) (mm_trunc 32 8 512 128 b)))
          else four va (fun a b c d =>
            let* a := sel R256 a in let* b := sel R256 b in let* c := sel R256 c in let* d := sel R256 d in
            let* x := i_zip A I32 R256 false a b in let* y := i_zip A I32 R256 false c d in
            let* t := i_zip A I64 R256 false x y in let '(b0, b1) := i_split1 R256 t in
            let* c0 := i_unzip_lo A I32 R128 b0 b1 in let* c1 := i_unzip_hi A I32 R128 b0 b1 in
            Ok (mm_combine128 c0 c1))
        else NotImpl
    | R512 =>
        if use_avx512bw A then four va (fun a b c d =>
          let t := mm_trunc 32 8 512 128 in Ok (mm_combine256 (mm_combine128 (t a) (t b)) (mm_combine128 (t c) (t d))))
        else NotImpl
    end.
  (** conv_shrink_to_int8.h: 250-290, 293-332, 336-351 *)
  Definition nar_64_8 (s : rsz) (va : vec) : res Z :=
    let sel s := masked s 1 [0; 8; 0; 0; 0; 0; 0; 0; 0; 0; 0; 0; 0; 0; 0; 0] in
    let sel2 s := masked s 2 [0; 4; 1; 5; 2; 6; 3; 7] in
    let pair a b := mm_unpacklo 64 128 (mm_trunc 64 8 512 128 a) (mm_trunc 64 8 512 128 b) in
    let quad a b c d := let* x := i_zip A I16 R256 false a b in let* y := i_zip A I16 R256 false c d in
                        i_zip A I32 R256 false x y in
    match s with
    | R128 =>
        if use_null A then null_narrow 64 8 va
        else if use_avx512f A then two va (fun a b => Ok (pair a b))
        else if use_avx2 A then four va (fun a b c d =>
          let* a := sel R256 a in let* b := sel R256 b in let* c := sel R256 c in let* d := sel R256 d in
          let* t := quad a b c d in let* t := i_permute4_64 A R256 0 2 0 2 t in sel2 R128 (mm_extract128 0 t))
        else eight va (fun a b c d e f g h => (* i_to_uint32(uint64<16>), then i_to_uint8 *)
          let* x := nar_64_32 R128 [a; b] in let* y := nar_64_32 R128 [c; d] in
          let* z := nar_64_32 R128 [e; f] in let* t := nar_64_32 R128 [g; h] in nar_32_8 R128 [x; y; z; t])
    | R256 =>
        if use_avx2 A then
          if use_avx512f A then four va (fun a b c d => Ok (mm_combine128 (pair a b) (pair c d)))
          else eight va (fun a b c d e f g h =>
            let* a := sel R256 a in let* b := sel R256 b in let* c := sel R256 c in let* d := sel R256 d in
            let* e := sel R256 e in let* f := sel R256 f in let* g := sel R256 g in let* h := sel R256 h in
            let* x := quad a b c d in let* y := quad e f g h in let* t := i_zip A I64 R256 false x y in
            let* t := i_permute4_64 A R256 0 2 1 3 t in sel2 R256 t)
        else NotImpl
    | R512 =>
        if use_avx512bw A then eight va (fun a b c d e f g h =>
          Ok (mm_combine256 (mm_combine128 (pair a b) (pair c d)) (mm_combine128 (pair e f) (pair g h))))
        else NotImpl
    end.
  Definition nar (w w' : Z) : rsz -> vec -> res Z :=
    if (w =? 64) && (w' =? 32) then nar_64_32 else if (w =? 32) && (w' =? 16) then nar_32_16
    else if (w =? 16) && (w' =? 8) then nar_16_8 else if (w =? 64) && (w' =? 16) then nar_64_16
    else if (w =? 32) && (w' =? 8) then nar_32_8 else if (w =? 64) && (w' =? 8) then nar_64_8 else fun _ _ => NotImpl.

  (** The conversion of longer vectors (int32.h:88-115, int16.h:103-135, 216-252, int8.h:99-126,
      210-246, 354-387): result register I is computed from [k] source registers, copied into a
      vector of [m] registers (uninitialised: 0); [k] differs from [m] only in
      Uint64ToInt8Converter.  [stop]: the recursion of Uint32ToInt8Converter is missing for
      AVX512F without AVX512BW (int8.h:214-218).  [dst]: the uninitialised result. *)
  Fixpoint nar_loop (f : vec -> res Z) (k m : nat) (stop : bool) (src dst : vec) (i n : nat) : res vec :=
    match n with
    | O => Ok dst
    | S n =>
        let* sr := acopy (repeat 0 m) src (map (fun j => (j, (i * k + j)%nat)) (seq 0 k)) in
        let* x := f sr in let* dst := aset dst i x in
        if stop then Ok dst else nar_loop f k m stop src dst (S i) n
    end.
  Definition copies (w w' : Z) : nat :=
    if (w =? 64) && (w' =? 8) then 8
    else if (w =? 64) && (w' =? 16) || (w =? 32) && (w' =? 8) then if f_not_bw A then 2 else 4
    else if (w =? 32) && (w' =? 16) then if f_not_bw A then 1 else 2
    else 2.
  (** core/to_int8.h:46-75, 110-139, to_int16.h:60-79, 126-145, to_int32.h:80-89, 155-164; [T]:
      the bits of the argument; [junk]: the uninitialised result *)
  Definition to_int_narrow (junk : vec) (w w' T : Z) (va : vec) : res vec :=
    let T' := T * w' / w in
    let s' := vreg A w' T' in
    match vlen A w' T' with
    | 1%nat => let* r := nar w w' s' va in Ok [r]
    | n => let m := vlen A w (rbits s' * w / w') in
           let stop := (w =? 32) && (w' =? 8) && f_not_bw A in
           nar_loop (nar w w' s') (copies w w') m stop va junk 0 n
    end.
End N.
