(** Straight-line programs over vectors of one element type, and what they compute in one
    lane.  (C37, C38) *)
From Verif Require Export Spec.Lanewise.

Inductive uop := UNot | UShl (c : Z) | UShr (sg : bool) (c : Z).
Inductive bop := BAdd | BSub | BMul | BAnd | BOr | BXor | BAndnot
  | BMin (sg : bool) | BMax (sg : bool) | BAvg (sg : bool) | BAvgTrunc (sg : bool)
  | BAddSat (sg : bool) | BSubSat (sg : bool).
Inductive cop := CEq | CNeq | CLt (sg : bool) | CLe (sg : bool) | CGt (sg : bool) | CGe (sg : bool).
Inductive kop := KAnd | KOr | KXor | KAndnot.
(** vector expressions and mask expressions *)
Inductive vexp := EVar (n : nat) | EConst (c : Z) | EUn (o : uop) (e : vexp) | EBin (o : bop) (e1 e2 : vexp)
  | EBlend (on off : vexp) (m : mexp)
with mexp := MCmp (o : cop) (e1 e2 : vexp) | MBin (o : kop) (m1 m2 : mexp) | MNot (m : mexp).

(** the meaning of each operator on w-bit numbers *)
Definition num (sg : bool) (w x : Z) : Z := if sg then sgn w x else x.
Definition u_val (w : Z) (o : uop) (x : Z) : Z :=
  match o with
  | UNot => (Z.lnot x) mod 2 ^ w
  | UShl c => s_shl w c x
  | UShr sg c => if sg then s_shr_s w c x else s_shr_u w c x
  end.
Definition b_val (w : Z) (o : bop) (x y : Z) : Z :=
  match o with
  | BAdd => s_add w x y
  | BSub => s_sub w x y
  | BMul => s_mul_lo w x y
  | BAnd => Z.land x y
  | BOr => Z.lor x y
  | BXor => Z.lxor x y
  | BAndnot => Z.land x (Z.lnot y)
  | BMin sg => if sg then s_min_s w x y else s_min_u x y
  | BMax sg => if sg then s_max_s w x y else s_max_u x y
  | BAvg sg => if sg then s_avg_s w x y else s_avg_u x y
  | BAvgTrunc sg => if sg then s_avg_trunc_s w x y else s_avg_trunc_u x y
  | BAddSat sg => if sg then s_add_sat_s w x y else s_add_sat_u w x y
  | BSubSat sg => if sg then s_sub_sat_s w x y else s_sub_sat_u w x y
  end.
Definition c_val (w : Z) (o : cop) (x y : Z) : bool :=
  match o with
  | CEq => x =? y
  | CNeq => negb (x =? y)
  | CLt sg => num sg w x <? num sg w y
  | CLe sg => num sg w x <=? num sg w y
  | CGt sg => num sg w y <? num sg w x
  | CGe sg => num sg w y <=? num sg w x
  end.
Definition k_val (o : kop) (x y : bool) : bool :=
  match o with KAnd => andb x y | KOr => orb x y | KXor => xorb x y | KAndnot => andb x (negb y) end.
(** one lane of a program, given that lane of each variable *)
Fixpoint v_val (w : Z) (e : vexp) (env : nat -> Z) : Z :=
  match e with
  | EVar n => env n
  | EConst c => c mod 2 ^ w
  | EUn o e => u_val w o (v_val w e env)
  | EBin o e1 e2 => b_val w o (v_val w e1 env) (v_val w e2 env)
  | EBlend on off m => if m_val w m env then v_val w on env else v_val w off env
  end
with m_val (w : Z) (m : mexp) (env : nat -> Z) : bool :=
  match m with
  | MCmp o e1 e2 => c_val w o (v_val w e1 env) (v_val w e2 env)
  | MBin o m1 m2 => k_val o (m_val w m1 env) (m_val w m2 env)
  | MNot m => negb (m_val w m env)
  end.

(** which operators exist for which element widths (on every instruction set) *)
Definition u_fine (w : ew) (o : uop) : Prop := match o with UNot => True | UShl c | UShr _ c => 0 <= c < wb w end.
Definition b_fine (w : ew) (o : bop) : Prop :=
  match o with
  | BMul => w = W32
  | BMin _ | BMax _ | BAvg _ | BAvgTrunc _ => w <> W64
  | BAddSat _ | BSubSat _ => w = W8 \/ w = W16
  | _ => True
  end.
Definition c_fine (w : ew) (o : cop) : Prop := match o with CEq => True | _ => w <> W64 end.
Fixpoint v_fine (w : ew) (e : vexp) : Prop :=
  match e with
  | EVar _ | EConst _ => True
  | EUn o e => u_fine w o /\ v_fine w e
  | EBin o e1 e2 => b_fine w o /\ v_fine w e1 /\ v_fine w e2
  | EBlend e1 e2 m => v_fine w e1 /\ v_fine w e2 /\ m_fine w m
  end
with m_fine (w : ew) (m : mexp) : Prop :=
  match m with
  | MCmp o e1 e2 => c_fine w o /\ v_fine w e1 /\ v_fine w e2
  | MBin _ m1 m2 => m_fine w m1 /\ m_fine w m2
  | MNot m => m_fine w m
  end.
