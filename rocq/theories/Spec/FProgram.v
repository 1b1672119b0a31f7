(** Straight-line programs that mix floating-point vectors, integer vectors of the same lane
    width and masks, and what they compute in one lane (IEEE bit patterns, Spec/Floats.v).
    d: false = float32 with int32/uint32, true = float64 with int64/uint64.  (C37, C38) *)
From Verif Require Export Spec.Program Spec.Floats Spec.FloatArith Spec.FloatConv Base.Arch.

Inductive fuop := FNeg | FAbs | FSign | FNot | FSqrt.
Inductive fbop := FAdd | FSub | FMul | FDiv | FMin | FMax | FAnd | FOr | FXor | FAndnot | FCopysign.
Inductive fcop := FEq | FNeq | FLt | FLe | FGt | FGe | FIsNan2.
Inductive fexp := FVar (n : nat) | FConst (c : Z) | FUn (o : fuop) (e : fexp) | FBin (o : fbop) (e1 e2 : fexp)
  | FBlend (on off : fexp) (m : fmexp) | FMasked (e : fexp) (m : fmexp) | FOfMask (m : fmexp)
  | FBits (i : iexp) | FOfInt (i : iexp)
with fmexp := FCmp (o : fcop) (e1 e2 : fexp) | FIsNan (e : fexp) | FIsFinite (e : fexp)
  | FMBin (o : kop) (m1 m2 : fmexp) | FMNot (m : fmexp)
with iexp := IVar (n : nat) | IConst (c : Z) | IUn (o : uop) (e : iexp) | IBin (o : bop) (e1 e2 : iexp)
  | IBlend (on off : iexp) (m : imexp) | IBits (e : fexp)
with imexp := ICmp (o : cop) (e1 e2 : iexp) | IMBin (o : kop) (m1 m2 : imexp) | IMNot (m : imexp).

Definition fu_val (w : Z) (o : fuop) (x : Z) : Z :=
  match o with
  | FNeg => f_opp w x
  | FAbs => f_mag w x
  | FSign => f_sign w (f_neg w x)
  | FNot => (Z.lnot x) mod 2 ^ w
  | FSqrt => f_sqrt w x
  end.
Definition fb_val (w : Z) (o : fbop) (x y : Z) : Z :=
  match o with
  | FAdd => f_add w x y
  | FSub => f_sub w x y
  | FMul => f_mul w x y
  | FDiv => f_div w x y
  | FMin => if f_lt w x y then x else y (* not the same everywhere: see fb_fine *)
  | FMax => if f_lt w y x then x else y
  | FAnd => Z.land x y
  | FOr => Z.lor x y
  | FXor => Z.lxor x y
  | FAndnot => Z.ldiff x y
  | FCopysign => f_sign w (f_neg w y) + f_mag w x
  end.
Definition fc_val (w : Z) (o : fcop) (x y : Z) : bool :=
  match o with
  | FEq => f_eq w x y
  | FNeq => negb (f_eq w x y)
  | FLt => f_lt w x y
  | FLe => f_le w x y
  | FGt => f_lt w y x
  | FGe => f_le w y x
  | FIsNan2 => f_nan w x || f_nan w y
  end.
(** one lane, given that lane of the float variables and of the integer variables *)
Fixpoint f_value (w : Z) (e : fexp) (fe ie : nat -> Z) : Z :=
  match e with
  | FVar n => fe n
  | FConst c => c mod 2 ^ w
  | FUn o e => fu_val w o (f_value w e fe ie)
  | FBin o e1 e2 => fb_val w o (f_value w e1 fe ie) (f_value w e2 fe ie)
  | FBlend on off m => if fm_value w m fe ie then f_value w on fe ie else f_value w off fe ie
  | FMasked e m => if fm_value w m fe ie then f_value w e fe ie else 0
  | FOfMask m => if fm_value w m fe ie then 2 ^ w - 1 else 0
  | FBits i => i_value w i fe ie
  | FOfInt i => f_of_int w (sgn w (i_value w i fe ie))
  end
with fm_value (w : Z) (m : fmexp) (fe ie : nat -> Z) : bool :=
  match m with
  | FCmp o e1 e2 => fc_val w o (f_value w e1 fe ie) (f_value w e2 fe ie)
  | FIsNan e => f_nan w (f_value w e fe ie)
  | FIsFinite e => f_finite w (f_value w e fe ie)
  | FMBin o m1 m2 => k_val o (fm_value w m1 fe ie) (fm_value w m2 fe ie)
  | FMNot m => negb (fm_value w m fe ie)
  end
with i_value (w : Z) (e : iexp) (fe ie : nat -> Z) : Z :=
  match e with
  | IVar n => ie n
  | IConst c => c mod 2 ^ w
  | IUn o e => u_val w o (i_value w e fe ie)
  | IBin o e1 e2 => b_val w o (i_value w e1 fe ie) (i_value w e2 fe ie)
  | IBlend on off m => if im_value w m fe ie then i_value w on fe ie else i_value w off fe ie
  | IBits e => f_value w e fe ie
  end
with im_value (w : Z) (m : imexp) (fe ie : nat -> Z) : bool :=
  match m with
  | ICmp o e1 e2 => c_val w o (i_value w e1 fe ie) (i_value w e2 fe ie)
  | IMBin o m1 m2 => k_val o (im_value w m1 fe ie) (im_value w m2 fe ie)
  | IMNot m => negb (im_value w m fe ie)
  end.

Definition few' (d : bool) : ew := if d then W64 else W32.
(** The instruction sets on which float operations are those of IEEE 754: all but 32-bit ARM
    NEON and AltiVec without VSX, whose float32 units flush denormals.  float32 square roots
    are also computed with reciprocal estimates on every AltiVec. *)
Definition ieee_unit (A : arch) (d : bool) : bool :=
  d || negb (use_neon_flt_sp A && negb (use_64 A) || use_altivec A && negb (use_vsx206 A)).
Definition ieee_sqrt (A : arch) (d : bool) : bool :=
  d || negb (use_neon_flt_sp A && negb (use_64 A) || use_altivec A).
(** which programs are meant for configuration A *)
Definition fu_fine (A : arch) (d : bool) (o : fuop) : Prop := match o with FSqrt => ieee_sqrt A d = true | _ => True end.
(** which zero and which NaN min and max give depends on the instruction set (Spec/FUnits.v) *)
Definition fb_fine (o : fbop) : Prop := match o with FMin | FMax => False | _ => True end.
Fixpoint f_fine (A : arch) (d : bool) (e : fexp) : Prop :=
  match e with
  | FVar _ | FConst _ => True
  | FUn o e => fu_fine A d o /\ f_fine A d e
  | FBin o e1 e2 => fb_fine o /\ f_fine A d e1 /\ f_fine A d e2
  | FBlend e1 e2 m => f_fine A d e1 /\ f_fine A d e2 /\ fm_fine A d m
  | FMasked e m => f_fine A d e /\ fm_fine A d m
  | FOfMask m => fm_fine A d m
  | FBits i => i_fine A d i
  | FOfInt i => d = false /\ i_fine A d i
  end
with fm_fine (A : arch) (d : bool) (m : fmexp) : Prop :=
  match m with
  | FCmp _ e1 e2 => f_fine A d e1 /\ f_fine A d e2
  | FIsNan e | FIsFinite e => f_fine A d e
  | FMBin _ m1 m2 => fm_fine A d m1 /\ fm_fine A d m2
  | FMNot m => fm_fine A d m
  end
with i_fine (A : arch) (d : bool) (e : iexp) : Prop :=
  match e with
  | IVar _ | IConst _ => True
  | IUn o e => u_fine (few' d) o /\ i_fine A d e
  | IBin o e1 e2 => b_fine (few' d) o /\ i_fine A d e1 /\ i_fine A d e2
  | IBlend e1 e2 m => i_fine A d e1 /\ i_fine A d e2 /\ im_fine A d m
  | IBits e => f_fine A d e
  end
with im_fine (A : arch) (d : bool) (m : imexp) : Prop :=
  match m with
  | ICmp o e1 e2 => c_fine (few' d) o /\ i_fine A d e1 /\ i_fine A d e2
  | IMBin _ m1 m2 => im_fine A d m1 /\ im_fine A d m2
  | IMNot m => im_fine A d m
  end.
