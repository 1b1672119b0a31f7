(** x86 intrinsics (SSE2 .. AVX-512), from the Intel 64 and AMD64 (XOP) manuals.
    Part of the trusted base.  [w] is the lane width of the instruction and [R]
    the register size, so [mm_add 8 128] is _mm_add_epi8, [mm_add 64 512] is
    _mm512_add_epi64, and so on. *)
From Verif Require Export Base.Isa.

(** _mm*_set_epi<w>: lane i is the (n-1-i)-th argument, given here as f i *)
Definition mm_set (w R : Z) (f : Z -> Z) : Z := pack w R f.
(** _mm*_set1_epi<w>, _mm*_setzero *)
Definition mm_set1 (w R c : Z) : Z := splat w R c.
Definition mm_setzero : Z := 0.

(** PADD, PSUB *)
Definition mm_add w R := v2 w R (fun x y => x + y).
Definition mm_sub w R := v2 w R (fun x y => x - y).
(** saturation of a mathematical value to the unsigned / signed w-bit range *)
Definition satu (w x : Z) : Z := if x <? 0 then 0 else if 2 ^ w - 1 <? x then 2 ^ w - 1 else x.
Definition sats (w x : Z) : Z :=
  if x <? - 2 ^ (w - 1) then - 2 ^ (w - 1)
  else if 2 ^ (w - 1) - 1 <? x then 2 ^ (w - 1) - 1 else x.
(** PADDUS, PSUBUS, PADDS, PSUBS *)
Definition mm_adds_epu w R := v2 w R (fun x y => satu w (x + y)).
Definition mm_subs_epu w R := v2 w R (fun x y => satu w (x - y)).
Definition mm_adds_epi w R := v2 w R (fun x y => sats w (sgn w x + sgn w y)).
Definition mm_subs_epi w R := v2 w R (fun x y => sats w (sgn w x - sgn w y)).
(** PABS *)
Definition mm_abs w R := v1 w R (fun x => Z.abs (sgn w x)).
(** PMULL, PMULH, PMULHU *)
Definition mm_mullo w R := v2 w R (fun x y => sgn w x * sgn w y).
Definition mm_mulhi_epi w R := v2 w R (fun x y => Z.shiftr (sgn w x * sgn w y) w).
Definition mm_mulhi_epu w R := v2 w R (fun x y => Z.shiftr (x * y) w).
(** PMULUDQ, PMULDQ: products of the even 32-bit lanes *)
Definition mm_mul_epu32 R := v2 64 R (fun x y => wrap 32 x * wrap 32 y).
Definition mm_mul_epi32 R := v2 64 R (fun x y => sgn 32 x * sgn 32 y).
(** PMINU, PMINS, PMAXU, PMAXS *)
Definition mm_min_epu w R := v2 w R (fun x y => if x <? y then x else y).
Definition mm_max_epu w R := v2 w R (fun x y => if y <? x then x else y).
Definition mm_min_epi w R := v2 w R (fun x y => if sgn w x <? sgn w y then x else y).
Definition mm_max_epi w R := v2 w R (fun x y => if sgn w y <? sgn w x then x else y).
(** PAVG *)
Definition mm_avg_epu w R := v2 w R (fun x y => Z.shiftr (x + y + 1) 1).

(** PAND, PANDN (~a & b), POR, PXOR *)
Definition mm_and (a b : Z) := Z.land a b.
Definition mm_andnot (a b : Z) := Z.ldiff b a.
Definition mm_or (a b : Z) := Z.lor a b.
Definition mm_xor (a b : Z) := Z.lxor a b.
(** VPTERNLOG: bit i of the result is bit (4*a_i + 2*b_i + c_i) of the immediate *)
Definition mm_ternarylogic R (a b c imm : Z) :=
  v3 1 R (fun x y z => Z.b2z (Z.testbit imm (4 * x + 2 * y + z))) a b c.
(** XOP VPCMOV: c ? a : b, bit-wise *)
Definition mm_cmov R (a b c : Z) := v3 1 R (fun x y z => if z =? 1 then x else y) a b c.
(** PBLENDVB: top bit of each mask byte selects b *)
Definition mm_blendv_epi8 R (a b m : Z) := v3 8 R (fun x y z => if 128 <=? z then y else x) a b m.

(** Comparisons into vectors *)
Definition tf (w : Z) (b : bool) : Z := if b then ones w else 0.
Definition mm_cmpeq w R := v2 w R (fun x y => tf w (x =? y)).
Definition mm_cmpgt w R := v2 w R (fun x y => tf w (sgn w y <? sgn w x)).
Definition mm_cmplt w R := v2 w R (fun x y => tf w (sgn w x <? sgn w y)).
(** XOP VPCOM (signed) and VPCOMU (unsigned) *)
Definition mm_comeq w := v2 w 128 (fun x y => tf w (x =? y)).
Definition mm_comneq w := v2 w 128 (fun x y => tf w (negb (x =? y))).
Definition mm_comlt_epi w := v2 w 128 (fun x y => tf w (sgn w x <? sgn w y)).
Definition mm_comlt_epu w := v2 w 128 (fun x y => tf w (x <? y)).
Definition mm_comle_epi w := v2 w 128 (fun x y => tf w (sgn w x <=? sgn w y)).
Definition mm_comle_epu w := v2 w 128 (fun x y => tf w (x <=? y)).
Definition mm_comgt_epi w := v2 w 128 (fun x y => tf w (sgn w y <? sgn w x)).
Definition mm_comgt_epu w := v2 w 128 (fun x y => tf w (y <? x)).
Definition mm_comge_epi w := v2 w 128 (fun x y => tf w (sgn w y <=? sgn w x)).
Definition mm_comge_epu w := v2 w 128 (fun x y => tf w (y <=? x)).

(** Comparisons into k-masks: one bit per lane, zero above *)
Definition kmask (w R : Z) (p : Z -> bool) : Z := mk 1 (nl w R) (fun i => Z.b2z (p i)).
Definition mm_cmpeq_mask w R a b := kmask w R (fun i => lane w i a =? lane w i b).
Definition mm_cmpneq_mask w R a b := kmask w R (fun i => negb (lane w i a =? lane w i b)).
Definition mm_cmplt_epi_mask w R a b := kmask w R (fun i => sgn w (lane w i a) <? sgn w (lane w i b)).
Definition mm_cmplt_epu_mask w R a b := kmask w R (fun i => lane w i a <? lane w i b).
Definition mm_cmpgt_epi_mask w R a b := kmask w R (fun i => sgn w (lane w i b) <? sgn w (lane w i a)).
Definition mm_cmpgt_epu_mask w R a b := kmask w R (fun i => lane w i b <? lane w i a).
Definition mm_cmple_epi_mask w R a b := kmask w R (fun i => sgn w (lane w i a) <=? sgn w (lane w i b)).
Definition mm_cmple_epu_mask w R a b := kmask w R (fun i => lane w i a <=? lane w i b).
Definition mm_cmpge_epi_mask w R a b := kmask w R (fun i => sgn w (lane w i b) <=? sgn w (lane w i a)).
Definition mm_cmpge_epu_mask w R a b := kmask w R (fun i => lane w i b <=? lane w i a).
(** _mm512_cmp_ep*_mask with predicate _MM_CMPINT_NLE (6: not less-or-equal) and
    _MM_CMPINT_NLT (5: not less-than) *)
Definition mm_cmpnle_epi_mask w R a b := kmask w R (fun i => negb (sgn w (lane w i a) <=? sgn w (lane w i b))).
Definition mm_cmpnle_epu_mask w R a b := kmask w R (fun i => negb (lane w i a <=? lane w i b)).
Definition mm_cmpnlt_epi_mask w R a b := kmask w R (fun i => negb (sgn w (lane w i a) <? sgn w (lane w i b))).
Definition mm_cmpnlt_epu_mask w R a b := kmask w R (fun i => negb (lane w i a <? lane w i b)).
(** VPTESTM *)
Definition mm_test_mask w R a b := kmask w R (fun i => negb (Z.land (lane w i a) (lane w i b) =? 0)).
(** VPMOVB2M etc.: sign bits; VPMOVM2B etc. *)
Definition mm_movepi_mask w R a := kmask w R (fun i => Z.testbit (lane w i a) (w - 1)).
Definition mm_movm w R k := pack w R (fun i => tf w (Z.testbit k i)).
(** masked moves: maskz_mov(k, a), maskz_set1(k, c), mask_blend(k, a, b) (= k ? b : a) *)
Definition mm_maskz_mov w R k a := pack w R (fun i => if Z.testbit k i then lane w i a else 0).
Definition mm_maskz_set1 w R k c := pack w R (fun i => if Z.testbit k i then c else 0).
Definition mm_mask_blend w R k a b := pack w R (fun i => if Z.testbit k i then lane w i b else lane w i a).
(** k-register operations on the C types __mmask8/16/32/64 of [n] bits *)
Definition k_and (a b : Z) := Z.land a b.
Definition k_or (a b : Z) := Z.lor a b.
Definition k_xor (a b : Z) := Z.lxor a b.
Definition k_not (n a : Z) := wrap n (Z.lnot a).
Definition k_andnot (n a b : Z) := Z.land (wrap n (Z.lnot a)) b.
(** _mm512_kand etc. operate on 16 bits only *)
Definition mm512_kand a b := wrap 16 (Z.land a b).
Definition mm512_kandn a b := wrap 16 (Z.ldiff b a).
Definition mm512_kor a b := wrap 16 (Z.lor a b).
Definition mm512_kxor a b := wrap 16 (Z.lxor a b).
Definition mm512_kxnor a b := wrap 16 (Z.lnot (Z.lxor a b)).
Definition mm512_knot a := wrap 16 (Z.lnot a).

#[global] Hint Unfold mm_set mm_set1 mm_setzero mm_add mm_sub mm_adds_epu mm_subs_epu mm_adds_epi
  mm_subs_epi mm_abs mm_mullo mm_mulhi_epi mm_mulhi_epu mm_mul_epu32 mm_mul_epi32
  mm_min_epu mm_max_epu mm_min_epi mm_max_epi mm_avg_epu mm_and mm_andnot mm_or mm_xor
  mm_ternarylogic mm_cmov mm_blendv_epi8 mm_cmpeq mm_cmpgt mm_cmplt
  mm_comeq mm_comneq mm_comlt_epi mm_comlt_epu mm_comle_epi mm_comle_epu
  mm_comgt_epi mm_comgt_epu mm_comge_epi mm_comge_epu
  mm_cmpeq_mask mm_cmpneq_mask mm_cmplt_epi_mask mm_cmplt_epu_mask mm_cmpgt_epi_mask
  mm_cmpgt_epu_mask mm_cmple_epi_mask mm_cmple_epu_mask mm_cmpge_epi_mask mm_cmpge_epu_mask
  mm_cmpnle_epi_mask mm_cmpnle_epu_mask mm_cmpnlt_epi_mask mm_cmpnlt_epu_mask
  mm_test_mask mm_movepi_mask mm_movm mm_maskz_mov mm_maskz_set1 mm_mask_blend : isa.
