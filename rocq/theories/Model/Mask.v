(** Masks: the three representations and the conversions between masks and vectors. *)
From Verif Require Export Model.Null Model.MakeConst.

(** How a mask of integers with element width w in a register of size s is stored:
    an array of uint8_t 0/1 (detail/null/mask.h), a vector of all-ones/zero lanes, or
    an AVX-512 k-mask (types/int8x16.h:178-190, int16x8.h:178-190, int32x4.h:181-193,
    int64x2.h:178-190 and the same declarations in int*x32.h .. int64x8.h). *)
Inductive mkind := KNull | KVec | KBits.
Definition mk_int (A : arch) (w : ew) (s : rsz) : mkind :=
  match s with
  | R128 =>
      if use_avx512vl A then KBits
      else if use_null A then KNull
      else match w with
           | W64 => if use_altivec A && negb (use_vsx207 A) then KNull else KVec
           | _ => KVec
           end
  | R256 => if use_avx512vl A then KBits else KVec
  | R512 => KBits
  end.

(** unmask(): types/int8x16.h:217-226, int16x8.h:217-226, int32x4.h:220-229,
    int64x2.h:217-226, int8x32.h:176-183, int16x16.h:177-184, int32x8.h:179-186,
    int64x4.h:180-187, int8x64.h:181-187, int16x32.h:179-185, int32x16.h:173-180,
    int64x8.h:174-181.  Also the conversion uint8<16>(mask) (assign from a mask). *)
Definition unmask (A : arch) (w : ew) (s : rsz) (m : Z) : res Z :=
  match mk_int A w s with
  | KNull => null_unmask (ut w) (rbits s) m
  | KVec => Ok m
  | KBits =>
      match s, w with
      | R512, (W32 | W64) =>
          if use_avx512dq A then Ok (mm_movm (wb w) 512 m)
          else Ok (mm_maskz_set1 (wb w) 512 m (ones (wb w)))
      | _, _ => Ok (mm_movm (wb w) (rbits s) m)
      end
  end.
