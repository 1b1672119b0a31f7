(** What the float unit of a configuration computes in one lane, on every configuration.
    IEEE units compute the functions of Spec/FloatArith.v.  Units that flush (32-bit ARM NEON,
    AltiVec without VSX; float32 only) replace denormal operands and results by zeros; they have no
    division or square root: the library uses Newton steps on the processor's estimates [est],
    about which nothing is assumed.  (C37, C38, C48, C59) *)
From Verif Require Export Spec.FProgram Spec.FloatOrd.

Definition fbits (d : bool) : Z := if d then 64 else 32.
Definition denorm0 (A : arch) (d : bool) (x : Z) : Z := if ieee_unit A d then x else f_flush (fbits d) x.
(** AltiVec without VSX multiplies by a fused multiply-add with addend +0 *)
Definition no_mul (A : arch) (d : bool) : bool := negb d && use_altivec A && negb (use_vsx206 A).
Definition unit_mul (A : arch) (d : bool) (x y : Z) : Z :=
  let w := fbits d in let z := denorm0 A d in
  z (if no_mul A d then f_fma w (z x) (z y) 0 else f_mul w (z x) (z y)).
Definition low32 (x : Z) : Z := x mod 2 ^ 32.
(** one Newton step towards 1/y, one towards 1/sqrt(y); VRECPS gives 2 - x*y (2 for infinity
    times zero), VRSQRTS (3 - x*y)/2 (1.5), vec_nmsub c - x*y with one rounding *)
Definition inf0 (x y : Z) : bool := f_isinf 32 x && f_zero 32 y || f_zero 32 x && f_isinf 32 y.
Definition two_minus (x y : Z) : Z :=
  if inf0 x y then 0x40000000 else f_flush 32 (f_sub 32 0x40000000 (f_flush 32 (f_mul 32 x y))).
Definition half_three_minus (x y : Z) : Z :=
  if inf0 x y then 0x3fc00000
  else f_flush 32 (f_mul 32 0x3f000000 (f_sub 32 0x40400000 (f_flush 32 (f_mul 32 x y)))).
Definition minus_prod (c x y : Z) : Z := let r := f_fms 32 x y c in if f_nan 32 r then r else f_opp 32 r.
Definition recip_step (A : arch) (x y : Z) : Z :=
  let z := denorm0 A false in
  low32 (unit_mul A false x (low32 (if use_altivec A then z (minus_prod 0x40000000 (z x) (z y)) else two_minus (z y) (z x)))).
Definition rsqrt_step (A : arch) (x y : Z) : Z :=
  let z := denorm0 A false in
  let x2 := low32 (unit_mul A false x x) in
  if use_altivec A then
    low32 (unit_mul A false (low32 (unit_mul A false x 0x3f000000)) (low32 (z (minus_prod 0x40400000 (z y) (z x2)))))
  else low32 (unit_mul A false x (low32 (half_three_minus (z y) (z x2)))).
Definition unit_div (est : Z -> Z) (A : arch) (d : bool) (x y : Z) : Z :=
  if ieee_unit A d then f_div (fbits d) x y
  else unit_mul A d x (recip_step A (recip_step A (low32 (est y)) y) y).
Definition unit_sqrt (est : Z -> Z) (A : arch) (d : bool) (x : Z) : Z :=
  if ieee_sqrt A d then f_sqrt (fbits d) x
  else unit_mul A d x (rsqrt_step A (low32 (est x)) x).

(** The meaning of the operators of Spec/FProgram.v *)
Record lane_ops := { l_un : fuop -> Z -> Z; l_bin : fbop -> Z -> Z -> Z; l_cmp : fcop -> Z -> Z -> bool }.
(** L is what configuration A computes: the smaller and the larger of two numbers may be either
    one when they are equal (zeros), and any lane when one is a NaN. *)
Record is_unit (est : Z -> Z) (A : arch) (d : bool) (L : lane_ops) : Prop := {
  un_bits : forall o x, o <> FSqrt -> l_un L o x = fu_val (fbits d) o x;
  un_sqrt : forall x, l_un L FSqrt x = unit_sqrt est A d x;
  un_add : forall x y, l_bin L FAdd x y = denorm0 A d (f_add (fbits d) (denorm0 A d x) (denorm0 A d y));
  un_sub : forall x y, l_bin L FSub x y = denorm0 A d (f_sub (fbits d) (denorm0 A d x) (denorm0 A d y));
  un_mul : forall x y, l_bin L FMul x y = unit_mul A d x y;
  un_div : forall x y, l_bin L FDiv x y = unit_div est A d x y;
  un_min : forall x y, chooses_min (fbits d) (denorm0 A d x) (denorm0 A d y) (l_bin L FMin x y);
  un_max : forall x y, chooses_max (fbits d) (denorm0 A d x) (denorm0 A d y) (l_bin L FMax x y);
  un_land : forall o x y, In o [FAnd; FOr; FXor; FAndnot; FCopysign] -> l_bin L o x y = fb_val (fbits d) o x y;
  un_cmp : forall o x y, o <> FIsNan2 -> l_cmp L o x y = fc_val (fbits d) o (denorm0 A d x) (denorm0 A d y);
  un_nan2 : forall x y, l_cmp L FIsNan2 x y = fc_val (fbits d) FIsNan2 x y }.

(** one lane of a program *)
Fixpoint gf_value (L : lane_ops) (w : Z) (e : fexp) (fe ie : nat -> Z) : Z :=
  match e with
  | FVar n => fe n
  | FConst c => c mod 2 ^ w
  | FUn o e => l_un L o (gf_value L w e fe ie)
  | FBin o e1 e2 => l_bin L o (gf_value L w e1 fe ie) (gf_value L w e2 fe ie)
  | FBlend on off m => if gm_value L w m fe ie then gf_value L w on fe ie else gf_value L w off fe ie
  | FMasked e m => if gm_value L w m fe ie then gf_value L w e fe ie else 0
  | FOfMask m => if gm_value L w m fe ie then 2 ^ w - 1 else 0
  | FBits i => gi_value L w i fe ie
  | FOfInt i => f_of_int w (sgn w (gi_value L w i fe ie))
  end
with gm_value (L : lane_ops) (w : Z) (m : fmexp) (fe ie : nat -> Z) : bool :=
  match m with
  | FCmp o e1 e2 => l_cmp L o (gf_value L w e1 fe ie) (gf_value L w e2 fe ie)
  | FIsNan e => f_nan w (gf_value L w e fe ie)
  | FIsFinite e => f_finite w (gf_value L w e fe ie)
  | FMBin o m1 m2 => k_val o (gm_value L w m1 fe ie) (gm_value L w m2 fe ie)
  | FMNot m => negb (gm_value L w m fe ie)
  end
with gi_value (L : lane_ops) (w : Z) (e : iexp) (fe ie : nat -> Z) : Z :=
  match e with
  | IVar n => ie n
  | IConst c => c mod 2 ^ w
  | IUn o e => u_val w o (gi_value L w e fe ie)
  | IBin o e1 e2 => b_val w o (gi_value L w e1 fe ie) (gi_value L w e2 fe ie)
  | IBlend on off m => if gim_value L w m fe ie then gi_value L w on fe ie else gi_value L w off fe ie
  | IBits e => gf_value L w e fe ie
  end
with gim_value (L : lane_ops) (w : Z) (m : imexp) (fe ie : nat -> Z) : bool :=
  match m with
  | ICmp o e1 e2 => c_val w o (gi_value L w e1 fe ie) (gi_value L w e2 fe ie)
  | IMBin o m1 m2 => k_val o (gim_value L w m1 fe ie) (gim_value L w m2 fe ie)
  | IMNot m => negb (gim_value L w m fe ie)
  end.
(** programs that compile: no conversion of 64-bit integers, no integer operator that is missing
    for the lane width *)
Fixpoint gf_fine (d : bool) (e : fexp) : Prop :=
  match e with
  | FVar _ | FConst _ => True
  | FUn _ e => gf_fine d e
  | FBin _ e1 e2 => gf_fine d e1 /\ gf_fine d e2
  | FBlend e1 e2 m => gf_fine d e1 /\ gf_fine d e2 /\ gm_fine d m
  | FMasked e m => gf_fine d e /\ gm_fine d m
  | FOfMask m => gm_fine d m
  | FBits i => gi_fine d i
  | FOfInt i => d = false /\ gi_fine d i
  end
with gm_fine (d : bool) (m : fmexp) : Prop :=
  match m with
  | FCmp _ e1 e2 => gf_fine d e1 /\ gf_fine d e2
  | FIsNan e | FIsFinite e => gf_fine d e
  | FMBin _ m1 m2 => gm_fine d m1 /\ gm_fine d m2
  | FMNot m => gm_fine d m
  end
with gi_fine (d : bool) (e : iexp) : Prop :=
  match e with
  | IVar _ | IConst _ => True
  | IUn o e => u_fine (few' d) o /\ gi_fine d e
  | IBin o e1 e2 => b_fine (few' d) o /\ gi_fine d e1 /\ gi_fine d e2
  | IBlend e1 e2 m => gi_fine d e1 /\ gi_fine d e2 /\ gim_fine d m
  | IBits e => gf_fine d e
  end
with gim_fine (d : bool) (m : imexp) : Prop :=
  match m with
  | ICmp o e1 e2 => c_fine (few' d) o /\ gi_fine d e1 /\ gi_fine d e2
  | IMBin _ m1 m2 => gim_fine d m1 /\ gim_fine d m2
  | IMNot m => gim_fine d m
  end.
