(** Shuffle, shift, broadcast and pack instructions of the four families, from the same
    manuals as X86.v, Neon.v, Ppc.v and Msa.v.  Part of the trusted base. *)
From Verif Require Export Base.Shuf Base.X86 Base.Neon Base.Ppc Base.Msa.

(** ------------------------------ x86 ------------------------------ *)
(** 2-bit field k of an immediate *)
Definition i2 (imm k : Z) : Z := Z.land (Z.shiftr imm (2 * k)) 3.
(** PSHUFD; PSHUFLW; PSHUFHW *)
Definition mm_shuffle_epi32 R imm a := lsh 32 R 4 (fun k => fromA (i2 imm k)) [a].
Definition mm_shufflelo_epi16 R imm a := lsh 16 R 8 (fun k => fromA (if k <? 4 then i2 imm k else k)) [a].
Definition mm_shufflehi_epi16 R imm a := lsh 16 R 8 (fun k => fromA (if k <? 4 then k else 4 + i2 imm (k - 4))) [a].
(** SHUFPS; VPERMILPS imm; MOVHLPS; MOVLHPS *)
Definition mm_shuffle_ps R imm a b := lsh 32 R 4 (fun k => if k <? 2 then fromA (i2 imm k) else fromB (i2 imm k)) [a; b].
Definition mm_permute_ps R imm a := lsh 32 R 4 (fun k => fromA (i2 imm k)) [a].
Definition mm_movehl_ps a b := lsh 64 128 2 (fun k => if k =? 0 then fromB 1 else fromA 1) [a; b].
Definition mm_movelh_ps a b := lsh 64 128 2 (fun k => if k =? 0 then fromA 0 else fromB 0) [a; b].
(** SHUFPD, VPERMILPD imm: bit i of the immediate is for 64-bit lane i *)
Definition mm_shuffle_pd R imm a b :=
  pack 64 R (fun i => lane 64 (2 * (i / 2) + Z.b2z (Z.testbit imm i)) (if Z.even i then a else b)).
Definition mm_permute_pd R imm a := mm_shuffle_pd R imm a a.
(** PUNPCKL/H, UNPCKL/HPS/PD *)
Definition mm_unpacklo w R a b :=
  lsh w R (128 / w) (fun k => if Z.even k then fromA (k / 2) else fromB (k / 2)) [a; b].
Definition mm_unpackhi w R a b :=
  lsh w R (128 / w) (fun k => if Z.even k then fromA (64 / w + k / 2) else fromB (64 / w + k / 2)) [a; b].
(** PSRLDQ, PSLLDQ (per 128 bits), PALIGNR *)
Definition mm_bsrli R sh a := lsh 8 R 16 (fun k => if k + sh <? 16 then fromA (k + sh) else zlane) [a].
Definition mm_bslli R sh a := lsh 8 R 16 (fun k => if k <? sh then zlane else fromA (k - sh)) [a].
Definition mm_alignr R sh a b :=
  lsh 8 R 16 (fun k => if k + sh <? 16 then fromB (k + sh)
                       else if k + sh <? 32 then fromA (k + sh - 16) else zlane) [a; b].
(** VALIGND/Q: whole register *)
Definition mm_alignr_w w R sh a b :=
  pack w R (fun k => if k + sh <? R / w then lane w (k + sh) b else lane w (k + sh - R / w) a).
(** PACKUS, PACKSS from 2w to w bits *)
Definition mm_packus w R a b := pack w R (fun i => let h := 64 / w in let k := i mod (2 * h) in
  satu w (sgn (2 * w) (if k <? h then lane (2 * w) (h * (i / (2 * h)) + k) a
                       else lane (2 * w) (h * (i / (2 * h)) + (k - h)) b))).
Definition mm_packs w R a b := pack w R (fun i => let h := 64 / w in let k := i mod (2 * h) in
  sats w (sgn (2 * w) (if k <? h then lane (2 * w) (h * (i / (2 * h)) + k) a
                       else lane (2 * w) (h * (i / (2 * h)) + (k - h)) b))).
(** VPBROADCAST from the low lane; MOVD, MOVQ from a general register *)
Definition mm_broadcast w R a := splat w R (lane w 0 a).
Definition mm_cvtsi32 v := wrap 32 v.
Definition mm_cvtsi64 v := wrap 64 v.
(** VPERMQ/VPERMPD imm (256 bits), VPERMQ/PD imm on 512 bits works on each 256 bits *)
Definition mm_permute4x64 R imm a := lsh 64 R 4 (fun k => fromA (i2 imm k)) [a].
(** PBLENDW (same 8-bit immediate for each 128 bits), VPBLENDD/BLENDPS/BLENDPD *)
Definition mm_blend_epi16 R imm a b := lsh 16 R 8 (fun k => if Z.testbit imm k then fromB k else fromA k) [a; b].
Definition mm_blend w R imm a b := pack w R (fun i => if Z.testbit imm i then lane w i b else lane w i a).
(** masked forms: zero, or lane of src, where the mask bit is clear *)
Definition mm_maskz w R k a := pack w R (fun i => if Z.testbit k i then lane w i a else 0).
Definition mm_maskm w R src k a := pack w R (fun i => if Z.testbit k i then lane w i a else lane w i src).
(** VPERMW/D/Q (indices modulo the number of lanes), VPERMT2/I2 *)
Definition mm_permutexvar w R idx a := pack w R (fun i => lane w (lane w i idx mod (R / w)) a).
Definition mm_permutex2var w R a idx b :=
  pack w R (fun i => let j := lane w i idx mod (2 * (R / w)) in
                     if j <? R / w then lane w j a else lane w (j - R / w) b).
(** PSHUFB *)
Definition mm_shuffle_epi8 R a m := pack 8 R (fun i => let c := lane 8 i m in
  if 128 <=? c then 0 else lane 8 (16 * (i / 16) + c mod 16) a).
(** XOP VPPERM: bits 4:0 select a byte of a (0-15) or b (16-31), bits 7:5 an operation on it *)
Definition mm_perm_epi8 a b m := v1 8 128 (fun c =>
  let j := c mod 32 in let x := if j <? 16 then lane 8 j a else lane 8 (j - 16) b in
  let rev := mk 1 8 (fun i => lane 1 (7 - i) x) in
  match c / 32 with
  | 0 => x | 1 => Z.lnot x | 2 => rev | 3 => Z.lnot rev | 4 => 0 | 5 => 255
  | 6 => tf 8 (Z.testbit x 7) | _ => tf 8 (negb (Z.testbit x 7)) end) m.
(** PSLL, PSRL, PSRA by a uniform count (immediate or low 64 bits of a register) *)
Definition mm_sll w R a c := v1 w R (fun x => if c <? w then Z.shiftl x c else 0) a.
Definition mm_srl w R a c := v1 w R (fun x => if c <? w then Z.shiftr x c else 0) a.
Definition mm_sra w R a c := v1 w R (fun x => Z.shiftr (sgn w x) (if c <? w then c else w - 1)) a.
(** VPSLLV, VPSRLV, VPSRAV *)
Definition mm_sllv w R := v2 w R (fun x c => if c <? w then Z.shiftl x c else 0).
Definition mm_srlv w R := v2 w R (fun x c => if c <? w then Z.shiftr x c else 0).
Definition mm_srav w R := v2 w R (fun x c => Z.shiftr (sgn w x) (if c <? w then c else w - 1)).
(** 128-bit pieces *)
Definition mm_extract128 i a := lane 128 i a.
Definition mm_extract256 i a := lane 256 i a.
Definition mm_combine128 a0 a1 := pack 128 256 (fun i => if i =? 0 then a0 else a1).
Definition mm_combine256 a0 a1 := pack 256 512 (fun i => if i =? 0 then a0 else a1).
(** PMOVZX / PMOVSX: from w to v bits, low lanes of a; VPMOV truncation *)
Definition mm_cvtepu w v R a := pack v R (fun i => lane w i a).
Definition mm_cvtepi w v R a := pack v R (fun i => sgn w (lane w i a)).
(** PSADBW *)
Definition mm_sad_epu8 R a b :=
  pack 64 R (fun i => fold_right Z.add 0 (map (fun j => Z.abs (lane 8 (8 * i + j) a - lane 8 (8 * i + j) b)) (zrange 8))).
(** PMOVMSKB, MOVMSKPS *)
Definition mm_movemask w R a := kmask w R (fun i => Z.testbit (lane w i a) (w - 1)).

(** ------------------------------ NEON ------------------------------ *)
(** [Q]: 128 for the q forms, 64 for the d forms *)
Definition vext w Q n a b :=
  lsh w Q (Q / w) (fun k => if k + n <? Q / w then fromA (k + n) else fromB (k + n - Q / w)) [a; b].
Definition vzip w Q (hi : bool) a b :=
  lsh w Q (Q / w) (fun k => let o := if hi then Q / w / 2 else 0 in
                            if Z.even k then fromA (o + k / 2) else fromB (o + k / 2)) [a; b].
Definition vuzp w Q (hi : bool) a b :=
  lsh w Q (Q / w) (fun k => let o := if hi then 1 else 0 in
     if k <? Q / w / 2 then fromA (2 * k + o) else fromB (2 * (k - Q / w / 2) + o)) [a; b].
Definition vtrn w Q (hi : bool) a b :=
  lsh w Q 2 (fun k => let o := if hi then 1 else 0 in if k =? 0 then fromA o else fromB o) [a; b].
(** vrev64, vrev32: reverse the lanes of each 64 (32) bits *)
Definition vrev G w Q a := lsh w Q (G / w) (fun k => fromA (G / w - 1 - k)) [a].
(** vdup_lane, vdupq_lane *)
Definition vdup_lane w Q n a := splat w Q (lane w n a).
(** shifts by an immediate *)
Definition vshlq_n w c := v1 w 128 (fun x => Z.shiftl x c).
Definition vshrq_n_u w c := v1 w 128 (fun x => Z.shiftr x c).
Definition vshrq_n_s w c := v1 w 128 (fun x => Z.shiftr (sgn w x) c).
(** USHL, SSHL: the count is the signed low byte of each lane *)
Definition vshlq_u w := v2 w 128 (fun x c => let c := sgn 8 c in if 0 <=? c then Z.shiftl x c else Z.shiftr x (- c)).
Definition vshlq_s w := v2 w 128 (fun x c => let c := sgn 8 c in if 0 <=? c then Z.shiftl x c else Z.shiftr (sgn w x) (- c)).
(** TBL: table of bytes (one or two d or q registers), zero when out of range *)
Definition vtbl (Q tb : Z) (tbl m : Z) := v1 8 Q (fun c => if c <? tb / 8 then lane 8 c tbl else 0) m.
(** a table of two q registers *)
Definition vtab2 a b := pack 128 256 (fun i => if i =? 0 then a else b).
(** vmovl, vmovn *)
Definition vmovl_u w a := pack (2 * w) 128 (fun i => lane w i a).
Definition vmovl_s w a := pack (2 * w) 128 (fun i => sgn w (lane w i a)).
Definition vmovn w a := pack w 64 (fun i => lane (2 * w) i a).
(** vpadd of d registers, vpaddl of q registers, vcnt *)
Definition vpadd w Q a b := pack w Q (fun i => let h := Q / w / 2 in
  if i <? h then lane w (2 * i) a + lane w (2 * i + 1) a
  else lane w (2 * (i - h)) b + lane w (2 * (i - h) + 1) b).
Definition vpaddlq_u w a := pack (2 * w) 128 (fun i => lane w (2 * i) a + lane w (2 * i + 1) a).

(** ------------------------------ POWER (little endian) ------------------------------ *)
Definition vec_mergeh w a b := lsh w 128 (128 / w) (fun k => if Z.even k then fromA (k / 2) else fromB (k / 2)) [a; b].
Definition vec_mergel w a b :=
  lsh w 128 (128 / w) (fun k => if Z.even k then fromA (64 / w + k / 2) else fromB (64 / w + k / 2)) [a; b].
(** VSLDOI: high half of the 256-bit a:b shifted left by n bytes (4-bit immediate) *)
Definition vec_sld a b n :=
  lsh 8 128 16 (fun k => if k <? n mod 16 then fromB (16 + k - n mod 16) else fromA (k - n mod 16)) [a; b].
Definition vec_perm a b m := v1 8 128 (fun c => let j := c mod 32 in
  if j <? 16 then lane 8 j a else lane 8 (j - 16) b) m.
Definition vec_splat w n a := splat w 128 (lane w n a).
(** XXPERMDI in little-endian element numbering: bit 1 of the mask selects the lane of a,
    bit 0 the lane of b *)
Definition vec_xxpermdi a b m :=
  lsh 64 128 2 (fun k => if k =? 0 then fromA (Z.land (Z.shiftr m 1) 1) else fromB (Z.land m 1)) [a; b].
(** VPKUxUM *)
Definition vec_pack w a b := pack w 128 (fun i => let h := 64 / w in
  if i <? h then lane (2 * w) i a else lane (2 * w) (i - h) b).
(** shifts: count modulo the lane width *)
Definition vec_sl w := v2 w 128 (fun x c => Z.shiftl x (c mod w)).
Definition vec_sr w := v2 w 128 (fun x c => Z.shiftr x (c mod w)).
Definition vec_sra w := v2 w 128 (fun x c => Z.shiftr (sgn w x) (c mod w)).
Definition vec_unpackh w a := pack (2 * w) 128 (fun i => sgn w (lane w i a)).
Definition vec_unpackl w a := pack (2 * w) 128 (fun i => sgn w (lane w (64 / w + i) a)).

(** ------------------------------ MSA ------------------------------ *)
Definition msa_shf w imm a := lsh w 128 4 (fun k => fromA (i2 imm k)) [a].
(** ILVR, ILVL, PCKEV, PCKOD (wd, ws, wt argument order as in the intrinsics: (b, a)) *)
Definition msa_ilvr w b a := lsh w 128 (128 / w) (fun k => if Z.even k then fromA (k / 2) else fromB (k / 2)) [a; b].
Definition msa_ilvl w b a :=
  lsh w 128 (128 / w) (fun k => if Z.even k then fromA (64 / w + k / 2) else fromB (64 / w + k / 2)) [a; b].
Definition msa_pckev w b a :=
  lsh w 128 (128 / w) (fun k => if k <? 64 / w then fromA (2 * k) else fromB (2 * (k - 64 / w))) [a; b].
Definition msa_pckod w b a :=
  lsh w 128 (128 / w) (fun k => if k <? 64 / w then fromA (2 * k + 1) else fromB (2 * (k - 64 / w) + 1)) [a; b].
(** SLD(I).B: bytes n .. n+15 of d:s, s being the low part; n is taken modulo 16 *)
Definition msa_sld d s n :=
  lsh 8 128 16 (fun k => if k + n mod 16 <? 16 then fromA (k + n mod 16) else fromB (k + n mod 16 - 16)) [s; d].
(** VSHF: zero when bit 6 or 7 of the control lane is set, else lane (m mod 2n) of t:s, t
    being the low part *)
Definition msa_vshf w m s t := v1 w 128 (fun c =>
  let j := wrap 6 c mod (2 * (128 / w)) in
  if negb (lane 2 3 c =? 0) then 0 else if j <? 128 / w then lane w j t else lane w (j - 128 / w) s) m.
Definition msa_splat w n a := splat w 128 (lane w (n mod (128 / w)) a).
Definition msa_fill w c := splat w 128 c.
Definition msa_sll w := v2 w 128 (fun x c => Z.shiftl x (c mod w)).
Definition msa_srl w := v2 w 128 (fun x c => Z.shiftr x (c mod w)).
Definition msa_sra w := v2 w 128 (fun x c => Z.shiftr (sgn w x) (c mod w)).
Definition msa_slli w c a := v1 w 128 (fun x => Z.shiftl x c) a.
Definition msa_srli w c a := v1 w 128 (fun x => Z.shiftr x c) a.
Definition msa_srai w c a := v1 w 128 (fun x => Z.shiftr (sgn w x) c) a.
