(** NEON permutations: simdpp/detail/shuffle/neon_int16x8.h, neon_int32x4.h, neon_int64x2.h. *)
From Verif Require Export Model.Bytes.

(** ---------------- neon_int16x8.h ---------------- *)
(** The bodies of the perm4 overloads as terms over the helper functions. *)
Inductive tm :=
| TArg | TBcast (n : Z) (t : tm) | TSel (s0 s1 s2 s3 : Z) (x y : tm)
| TMovR (n : Z) (t : tm) | TMovL (n : Z) (t : tm)
| TRev41 (t : tm) | TRev42 (t : tm) | TRev21 (t : tm)
| TDupLo (t : tm) | TDupHi (t : tm) | TDup2Lo (t : tm) | TDup2Hi (t : tm)
| TDupUnpackLo (t : tm) | TDupUnpackHi (t : tm) | TSwap1 (n1 n2 : Z) (t : tm).

(** 38-46 *)
Definition n16_bcast (n a : Z) : Z :=
  vcombine (vdup_lane 16 64 n (vget_low a)) (vdup_lane 16 64 n (vget_high a)).
(** 52-63 *)
Definition n16_um (s0 s1 s2 s3 : Z) : Z :=
  Z.lor (Z.lor (Z.lor (if 0 <? s0 then 0xffff else 0) (if 0 <? s1 then Z.shiftl 0xffff 16 else 0))
    (if 0 <? s2 then Z.shiftl 0xffff 32 else 0)) (if 0 <? s3 then Z.shiftl 0xffff 48 else 0).
Definition n16_sel (s0 s1 s2 s3 a b : Z) : Z := vbslq (vdupq 64 (n16_um s0 s1 s2 s3)) b a.
(** 69-79 *)
Definition n16_mov_r (n a : Z) : Z := vshlq_n 64 (n * 16) a.
Definition n16_mov_l (n a : Z) : Z := vshrq_n_u 64 (n * 16) a.
(** 83-104 *)
Definition n16_rev41 (a : Z) : Z := vrev 64 16 128 a.
Definition n16_rev42 (a : Z) : Z := vrev 64 32 128 a.
Definition n16_rev21 (a : Z) : Z := vrev 32 16 128 a.
(** 106-166 *)
Definition n16_dup_lo (a : Z) : Z := vtrn 16 128 false a a.
Definition n16_dup_hi (a : Z) : Z := vtrn 16 128 true a a.
Definition n16_dup2 (n a : Z) : Z :=
  vcombine (vdup_lane 32 64 n (vget_low a)) (vdup_lane 32 64 n (vget_high a)).
Definition n16_dup_unpack (hi : bool) (a : Z) : Z :=
  vcombine (vzip 16 64 hi (vget_low a) (vget_low a)) (vzip 16 64 hi (vget_high a) (vget_high a)).
(** 170-197 *)
Definition n16_swap1 (n1 n2 a : Z) : Z :=
  match n1 * 4 + n2 with
  | 0 | 5 | 10 | 15 => a
  | 1 | 4 | 11 | 14 => n16_rev21 a
  | 2 | 8 | 7 | 13 => n16_rev42 a
  | 3 | 12 | 6 | 9 => n16_rev41 a
  | _ => a
  end.
Fixpoint n16_eval (a : Z) (t : tm) : Z :=
  match t with
  | TArg => a
  | TBcast n t => n16_bcast n (n16_eval a t)
  | TSel s0 s1 s2 s3 x y => n16_sel s0 s1 s2 s3 (n16_eval a x) (n16_eval a y)
  | TMovR n t => n16_mov_r n (n16_eval a t)
  | TMovL n t => n16_mov_l n (n16_eval a t)
  | TRev41 t => n16_rev41 (n16_eval a t)
  | TRev42 t => n16_rev42 (n16_eval a t)
  | TRev21 t => n16_rev21 (n16_eval a t)
  | TDupLo t => n16_dup_lo (n16_eval a t)
  | TDupHi t => n16_dup_hi (n16_eval a t)
  | TDup2Lo t => n16_dup2 0 (n16_eval a t)
  | TDup2Hi t => n16_dup2 1 (n16_eval a t)
  | TDupUnpackLo t => n16_dup_unpack false (n16_eval a t)
  | TDupUnpackHi t => n16_dup_unpack true (n16_eval a t)
  | TSwap1 n1 n2 t => n16_swap1 n1 n2 (n16_eval a t)
  end.
(** 209-464: the overloads that exist, selectors (s0,s1,s2,s3) in row-major order;
    [None]: the generic overload (466-472), i.e. fallback *)
Definition n16_table : list (option tm) :=
  [(* selectors 0,_,_,_ *)
   Some (TBcast 0 TArg);
   Some (TSel 0 0 0 1 (TBcast 0 TArg) (TSwap1 1 3 TArg));
   Some (TSel 0 0 0 1 (TBcast 0 TArg) (TSwap1 2 3 TArg));
   Some (TSel 1 1 1 0 TArg (TBcast 0 TArg));
   Some (TSel 0 0 1 0 (TBcast 0 TArg) (TSwap1 1 2 TArg));
   Some (TDupUnpackLo TArg);
   Some (TSel 0 1 1 1 TArg (TMovR 1 TArg));
   Some (TSel 0 1 1 0 TArg (TMovR 1 TArg));
   Some (TSel 1 1 0 1 TArg (TBcast 0 TArg));
   None;
   Some (TDupLo TArg);
   Some (TSel 0 1 0 0 TArg (TSwap1 0 1 TArg));
   Some (TSel 0 0 1 0 (TBcast 0 TArg) (TSwap1 3 2 TArg));
   None;
   Some (TSel 0 1 1 1 TArg (TRev21 TArg));
   Some (TSel 0 1 1 0 TArg (TRev21 TArg));
   Some (TSel 1 0 1 1 TArg (TBcast 0 TArg));
   Some (TDup2Lo TArg);
   None;
   Some (TSel 0 0 1 0 TArg (TSwap1 0 2 TArg));
   Some (TSel 0 0 1 1 TArg (TRev41 TArg));
   Some (TSel 0 0 1 1 TArg (TBcast 1 TArg));
   Some (TSel 0 0 1 1 TArg (TMovR 1 TArg));
   Some (TSel 0 0 1 0 TArg (TSwap1 1 2 TArg));
   Some (TSel 0 0 0 1 TArg (TSwap1 0 3 TArg));
   Some (TSel 0 0 0 1 TArg (TSwap1 1 3 TArg));
   Some (TSel 0 0 0 1 TArg (TSwap1 2 3 TArg));
   Some TArg;
   None;
   None;
   Some (TSel 0 0 1 1 TArg (TRev21 TArg));
   Some (TSel 0 0 1 0 TArg (TSwap1 3 2 TArg));
   Some (TSel 0 1 0 0 (TBcast 0 TArg) (TSwap1 2 1 TArg));
   None;
   None;
   None;
   Some (TSel 0 1 1 1 TArg (TRev41 TArg));
   None;
   None;
   Some (TSel 0 1 1 0 TArg (TRev41 TArg));
   Some (TSel 0 1 0 1 TArg (TRev41 TArg));
   None;
   Some (TSel 0 1 1 1 TArg (TBcast 2 TArg));
   Some (TSel 0 1 0 0 TArg (TSwap1 2 1 TArg));
   None;
   None;
   None;
   Some (TSel 0 1 1 0 TArg (TMovL 1 TArg));
   Some (TSel 1 0 1 1 (TSwap1 3 1 TArg) (TBcast 0 TArg));
   Some (TSel 0 1 1 1 TArg (TRev42 TArg));
   None;
   Some (TSel 0 1 1 0 TArg (TRev42 TArg));
   None;
   None;
   None;
   None;
   None;
   Some (TSel 0 1 0 1 TArg (TSwap1 1 3 TArg));
   None;
   Some (TSel 0 1 0 0 TArg (TSwap1 3 1 TArg));
   None;
   None;
   None;
   Some (TSel 0 1 1 1 TArg (TBcast 3 TArg));
   (* selectors 1,_,_,_ *)
   Some (TSel 0 1 1 1 (TSwap1 1 0 TArg) (TBcast 0 TArg));
   Some (TRev21 (TSel 0 0 1 1 TArg (TRev41 TArg)));
   None;
   None;
   Some (TRev21 (TDup2Lo TArg));
   Some (TSel 1 0 1 1 (TSwap1 1 0 TArg) (TBcast 1 TArg));
   Some (TSel 0 1 1 1 (TSwap1 1 0 TArg) (TMovR 1 TArg));
   None;
   None;
   None;
   Some (TSel 0 0 1 1 (TSwap1 0 1 TArg) (TBcast 2 TArg));
   Some (TSel 1 1 0 0 TArg (TSwap1 0 1 TArg));
   None;
   None;
   Some (TRev21 TArg);
   Some (TSel 0 0 1 1 (TSwap1 0 1 TArg) (TBcast 3 TArg));
   Some (TRev42 (TDupUnpackLo TArg));
   Some (TSel 1 1 0 1 (TSwap1 0 2 TArg) (TBcast 1 TArg));
   None;
   None;
   Some (TSel 1 1 1 0 (TSwap1 0 3 TArg) (TBcast 1 TArg));
   Some (TBcast 1 TArg);
   Some (TSel 1 1 1 0 (TSwap1 2 3 TArg) (TBcast 1 TArg));
   Some (TSel 1 1 1 0 TArg (TBcast 1 TArg));
   None;
   Some (TSel 1 1 0 1 TArg (TBcast 1 TArg));
   Some (TSel 1 0 0 1 TArg (TRev21 TArg));
   Some (TSel 1 0 0 0 TArg (TSwap1 1 0 TArg));
   None;
   Some (TSel 1 1 0 1 (TSwap1 3 2 TArg) (TBcast 1 TArg));
   None;
   Some (TDupHi TArg);
   None;
   Some (TSel 1 1 0 0 (TRev42 TArg) (TMovL 1 TArg));
   None;
   None;
   Some (TSel 1 0 0 0 (TRev41 TArg) (TSwap1 2 0 (TRev41 TArg)));
   Some (TSel 1 0 1 1 (TSwap1 2 1 TArg) (TBcast 1 TArg));
   None;
   None;
   None;
   None;
   Some (TSel 0 1 1 1 (TSwap1 1 0 TArg) (TBcast 2 TArg));
   None;
   Some (TSel 0 0 0 1 (TMovL 1 TArg) (TSwap1 0 3 TArg));
   Some (TSel 0 0 0 1 (TMovL 1 TArg) (TSwap1 1 3 TArg));
   Some (TSel 0 0 0 1 (TMovL 1 TArg) (TSwap1 2 3 TArg));
   Some (TSel 0 0 0 1 (TMovL 1 TArg) TArg);
   None;
   Some (TRev42 (TSel 0 0 1 0 TArg (TSwap1 1 2 TArg)));
   None;
   None;
   None;
   Some (TSel 1 0 1 1 (TSwap1 3 1 TArg) (TBcast 1 TArg));
   None;
   None;
   None;
   None;
   None;
   None;
   None;
   None;
   None;
   Some (TSel 0 1 1 1 (TSwap1 1 0 TArg) (TBcast 3 TArg));
   (* selectors 2,_,_,_ *)
   Some (TSel 0 1 1 1 (TSwap1 2 0 TArg) (TBcast 0 TArg));
   Some (TRev42 (TSel 0 0 0 1 TArg (TSwap1 0 3 TArg)));
   None;
   None;
   None;
   None;
   Some (TSel 0 1 1 1 (TSwap1 2 0 TArg) (TMovR 1 TArg));
   None;
   None;
   None;
   Some (TSel 1 0 1 1 (TSwap1 0 1 TArg) (TBcast 2 TArg));
   None;
   None;
   None;
   None;
   None;
   None;
   Some (TRev42 (TSel 0 0 0 1 TArg (TSwap1 1 3 TArg)));
   None;
   Some (TSel 1 0 1 0 TArg (TSwap1 0 2 TArg));
   None;
   Some (TSel 0 1 1 1 (TSwap1 2 0 TArg) (TBcast 1 TArg));
   None;
   None;
   None;
   None;
   Some (TSel 1 0 1 1 TArg (TBcast 2 TArg));
   Some (TSel 1 0 0 0 TArg (TSwap1 2 0 TArg));
   None;
   None;
   None;
   None;
   Some (TRev41 (TDupLo TArg));
   Some (TRev42 (TSel 0 0 0 1 TArg (TSwap1 2 3 TArg)));
   Some (TSel 1 1 0 1 (TSwap1 0 2 TArg) (TBcast 2 TArg));
   None;
   Some (TSel 1 0 0 0 (TRev41 TArg) (TSwap1 1 0 (TRev41 TArg)));
   Some (TSel 1 0 0 1 (TRev41 TArg) (TRev21 (TRev41 TArg)));
   Some (TSel 1 1 0 1 (TSwap1 1 2 TArg) (TBcast 2 TArg));
   None;
   Some (TSel 1 1 1 0 (TSwap1 0 3 TArg) (TBcast 2 TArg));
   Some (TSel 1 1 1 0 (TSwap1 1 3 TArg) (TBcast 2 TArg));
   Some (TBcast 2 TArg);
   Some (TSel 1 1 1 0 TArg (TBcast 2 TArg));
   None;
   None;
   Some (TSel 1 1 0 1 (TSwap1 3 2 TArg) (TBcast 2 TArg));
   Some (TDupUnpackHi TArg);
   Some (TRev42 (TSel 0 1 0 0 TArg (TSwap1 0 1 TArg)));
   Some (TRev42 TArg);
   Some (TRev42 (TSel 0 1 0 0 TArg (TSwap1 2 1 TArg)));
   Some (TRev42 (TSel 0 1 0 0 TArg (TSwap1 3 1 TArg)));
   Some (TRev42 (TSel 1 1 0 0 TArg (TSwap1 1 0 TArg)));
   Some (TRev42 (TSel 1 0 0 0 TArg (TSwap1 1 0 TArg)));
   Some (TSel 0 0 1 1 (TRev42 TArg) (TMovR 1 TArg));
   None;
   None;
   Some (TRev42 (TSel 1 0 0 0 TArg (TSwap1 2 0 TArg)));
   Some (TSel 1 0 1 1 (TSwap1 3 1 TArg) (TBcast 2 TArg));
   Some (TDup2Hi TArg);
   None;
   Some (TRev42 (TSel 1 0 0 0 TArg (TSwap1 3 0 TArg)));
   Some (TRev21 (TSel 1 1 0 0 TArg (TRev41 TArg)));
   Some (TSel 0 1 1 1 (TSwap1 2 0 TArg) (TBcast 3 TArg));
   (* selectors 3,_,_,_ *)
   Some (TSel 0 1 1 1 (TSwap1 3 0 TArg) (TBcast 0 TArg));
   None;
   None;
   None;
   Some (TSel 0 1 0 0 (TRev41 TArg) (TSwap1 3 1 (TRev41 TArg)));
   None;
   Some (TSel 0 1 1 1 (TSwap1 3 0 TArg) (TMovR 1 TArg));
   None;
   None;
   None;
   None;
   None;
   None;
   None;
   None;
   Some (TSel 1 0 1 1 (TSwap1 0 1 TArg) (TBcast 3 TArg));
   None;
   None;
   None;
   None;
   Some (TSel 0 1 0 0 (TRev41 TArg) (TSwap1 2 1 (TRev41 TArg)));
   Some (TSel 0 1 1 1 (TSwap1 3 0 TArg) (TBcast 1 TArg));
   None;
   Some (TSel 1 0 1 0 TArg (TRev41 TArg));
   Some (TSel 1 0 0 1 TArg (TSwap1 3 0 TArg));
   None;
   None;
   Some (TSel 1 0 0 0 TArg (TSwap1 3 0 TArg));
   None;
   None;
   None;
   Some (TSel 1 0 1 1 TArg (TBcast 3 TArg));
   Some (TRev41 (TSel 0 1 0 0 TArg (TSwap1 0 1 TArg)));
   Some (TRev41 (TSel 1 1 0 0 TArg (TSwap1 0 1 TArg)));
   None;
   None;
   Some (TRev41 TArg);
   Some (TSel 0 0 0 1 (TRev41 TArg) (TSwap1 2 3 (TRev41 TArg)));
   Some (TSel 0 0 0 1 (TRev41 TArg) (TSwap1 1 3 (TRev41 TArg)));
   Some (TSel 0 0 0 1 (TRev41 TArg) (TSwap1 0 3 (TRev41 TArg)));
   Some (TRev41 (TSel 0 1 0 0 TArg (TSwap1 2 1 TArg)));
   Some (TSel 0 0 1 1 (TRev41 TArg) (TMovR 1 (TRev41 TArg)));
   Some (TSel 0 1 1 1 (TSwap1 3 0 TArg) (TBcast 2 TArg));
   Some (TSel 1 1 0 0 TArg (TRev41 TArg));
   Some (TRev41 (TSel 0 1 0 0 TArg (TSwap1 3 1 TArg)));
   None;
   Some (TRev21 (TDup2Hi TArg));
   Some (TSel 1 0 1 1 (TSwap1 2 1 TArg) (TBcast 3 TArg));
   Some (TRev42 (TSel 0 1 1 0 TArg (TRev21 TArg)));
   Some (TRev42 (TSel 0 0 1 0 TArg (TSwap1 3 2 TArg)));
   None;
   Some (TSel 1 1 0 1 (TSwap1 0 2 TArg) (TBcast 3 TArg));
   Some (TSel 0 1 0 0 (TRev41 TArg) (TSwap1 0 1 (TRev41 TArg)));
   Some (TRev41 (TDupHi TArg));
   Some (TSel 1 1 0 0 (TMovR 1 TArg) (TBcast 3 TArg));
   Some (TSel 1 1 0 1 (TSwap1 1 2 TArg) (TBcast 3 TArg));
   Some (TSel 0 1 1 0 (TRev41 TArg) (TMovR 1 (TRev41 TArg)));
   Some (TSel 0 1 1 1 (TRev41 TArg) (TMovR 1 (TRev41 TArg)));
   Some (TRev41 (TDupUnpackHi TArg));
   Some (TSel 1 1 0 1 TArg (TBcast 3 TArg));
   Some (TSel 1 1 1 0 (TSwap1 0 3 TArg) (TBcast 3 TArg));
   Some (TSel 1 1 1 0 (TSwap1 1 3 TArg) (TBcast 3 TArg));
   Some (TSel 1 1 1 0 (TSwap1 2 3 TArg) (TBcast 3 TArg));
   Some (TBcast 3 TArg)].
(** 200-206, 466-480 *)
Definition n16_permute4 (A : arch) (s0 s1 s2 s3 a : Z) : res Z :=
  match nth (Z.to_nat (64 * s0 + 16 * s1 + 4 * s2 + s3)) n16_table None with
  | Some t => Ok (n16_eval a t)
  | None => let* m := make_shuffle_bytes16_mask A R128 2 [s0; s1; s2; s3] in i_permute_bytes16 A R128 a m
  end.

(** ---------------- neon_int32x4.h ---------------- *)
(** 36-41 *)
Definition n32_bcast (n a : Z) : Z := vdup_lane 32 128 (n mod 2) (if n <? 2 then vget_low a else vget_high a).
(** 57-83 shf2x2 *)
Definition n32_shf2x2 (s0 s1 a b : Z) : Z :=
  let rev := vrev 64 32 64 in let ext := vext 32 64 1 in
  match s0 * 4 + s1 with
  | 0 => vdup_lane 32 64 0 a | 1 => a | 2 => vzip 32 64 false a b | 3 => rev (ext b a)
  | 4 => rev a | 5 => vdup_lane 32 64 1 a | 6 => ext a b | 7 => vzip 32 64 true a b
  | 8 => vzip 32 64 false b a | 9 => rev (ext a b) | 10 => vdup_lane 32 64 0 b | 11 => b
  | 12 => ext b a | 13 => vzip 32 64 true b a | 14 => rev b | _ => vdup_lane 32 64 1 b
  end.
(** 82-94 shf_1x2, 96-106 sel_lo_hi, 108-113 shf4x2 *)
Definition n32_shf_1x2 (s0 s1 a b : Z) : Z :=
  let rev := vrev 64 32 64 in let ext := vext 32 64 1 in
  match s0 * 2 + s1 with
  | 0 => vzip 32 64 false a b | 1 => rev (ext b a) | 2 => ext a b | _ => vzip 32 64 true a b
  end.
Definition n32_sel_lo_hi (sel a b : Z) : Z :=
  match sel with 0 => vget_low a | 1 => vget_high a | 2 => vget_low b | _ => vget_high b end.
Definition n32_shf4x2 (s0 s1 a b : Z) : Z :=
  n32_shf_1x2 (s0 mod 2) (s1 mod 2) (n32_sel_lo_hi (s0 / 2) a b) (n32_sel_lo_hi (s1 / 2) a b).
(** 115-138 perm4, permute4 *)
Definition n32_permute4 (s0 s1 s2 s3 a : Z) : Z :=
  if (s0 =? s1) && (s0 =? s2) && (s0 =? s3) then n32_bcast s0 a
  else if (s0 =? 1) && (s1 =? 0) && (s2 =? 3) && (s3 =? 2) then vrev 64 32 128 a
  else vcombine (n32_shf2x2 s0 s1 (vget_low a) (vget_high a)) (n32_shf2x2 s2 s3 (vget_low a) (vget_high a)).
(** 155-167 *)
Definition n32_shuffle2x2 (s0 s1 a b : Z) : Z :=
  vcombine (n32_shf2x2 s0 s1 (vget_low a) (vget_low b)) (n32_shf2x2 s0 s1 (vget_high a) (vget_high b)).
Definition n32_shuffle4x2 (s0 s1 s2 s3 a b : Z) : Z :=
  vcombine (n32_shf4x2 s0 s1 a b) (n32_shf4x2 s2 s3 a b).

(** ---------------- neon_int64x2.h ---------------- *)
(** NEON64 100-104 move_hi: make_uint(~0, 0) *)
Definition n64_move_hi (a b : Z) : Z := vbslq (pack 64 128 (fun i => if i =? 0 then 2 ^ 64 - 1 else 0)) a b.
(** 38-49 (32-bit NEON), 107-118 (NEON64) *)
Definition n64_permute2 (A : arch) (s0 s1 a : Z) : Z :=
  let co := vcombine in let lo := vget_low in let hi := vget_high in
  if use_neon64 A then
    match s0 * 2 + s1 with
    | 0 => vzip 64 128 false a a | 1 => a | 2 => vext 64 128 1 a a | _ => vzip 64 128 true a a end
  else
    match s0 * 2 + s1 with
    | 0 => co (lo a) (lo a) | 1 => a | 2 => co (hi a) (lo a) | _ => co (hi a) (hi a) end.
(** 65-88 (32-bit NEON), 134-157 (NEON64) *)
Definition n64_shuffle2x2 (A : arch) (s0 s1 a b : Z) : Z :=
  let co := vcombine in let lo := vget_low in let hi := vget_high in
  let z1 := vzip 64 128 false in let z2 := vzip 64 128 true in let ext := vext 64 128 1 in
  if use_neon64 A then
    match s0 * 4 + s1 with
    | 0 => z1 a a | 1 => a | 2 => z1 a b | 3 => n64_move_hi a b
    | 4 => ext a a | 5 => z2 a a | 6 => ext a b | 7 => z2 a b
    | 8 => z1 b a | 9 => n64_move_hi b a | 10 => z1 b b | 11 => b
    | 12 => ext b a | 13 => z2 b a | 14 => ext b b | _ => z2 b b end
  else
    match s0 * 4 + s1 with
    | 0 => co (lo a) (lo a) | 1 => a | 2 => co (lo a) (lo b) | 3 => co (lo a) (hi b)
    | 4 => co (hi a) (lo a) | 5 => co (hi a) (hi a) | 6 => co (hi a) (lo b) | 7 => co (hi a) (hi b)
    | 8 => co (lo b) (lo a) | 9 => co (lo b) (hi a) | 10 => co (lo b) (lo b) | 11 => b
    | 12 => co (hi b) (lo a) | 13 => co (hi b) (hi a) | 14 => co (hi b) (lo b) | _ => co (hi b) (hi b) end.
