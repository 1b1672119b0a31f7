(** Straight-line programs that also rearrange lanes.  (C37, C38)  A rearrangement works
    inside every aligned group of g lanes, g*w dividing 128, so lane i of a program depends
    on the lanes of the inputs in the same 128-bit block only. *)
From Verif Require Export Spec.Program Spec.Counting Spec.Shuffles.

Inductive shop1 := HMoveL (n : Z) | HMoveR (n : Z) | HPermute2 (s0 s1 : Z) | HPermute4 (s0 s1 s2 s3 : Z) | HSplat (n : Z).
Inductive shop2 := HZipLo | HZipHi | HUnzipLo | HUnzipHi | HAlign (n : Z) | HShuffle1 (s0 s1 : Z) | HShuffle2 (a0 a1 b0 b1 : Z).
(** operators beyond those of Spec/Program.v *)
Inductive xop1 := XNeg | XAbs | XPopcnt.
Inductive sexp := SVar (n : nat) | SConst (c : Z) | SUn (o : uop) (e : sexp) | SBin (o : bop) (e1 e2 : sexp)
  | SBlend (on off : sexp) (m : smexp) | SX1 (o : xop1) (e : sexp) | SMulHi (sg : bool) (e1 e2 : sexp) | SSh1 (o : shop1) (e : sexp) | SSh2 (o : shop2) (e1 e2 : sexp)
with smexp := SCmp (o : cop) (e1 e2 : sexp) | SMBin (o : kop) (m1 m2 : smexp) | SMNot (m : smexp).

(** lanes of w bits in a 128-bit block *)
Definition block_lanes (w : Z) : Z := 128 / w.
(** the size of the groups and where lane k of a group comes from *)
Definition h1_group (w : Z) (o : shop1) : Z :=
  match o with HPermute2 _ _ => 2 | HPermute4 _ _ _ _ => 4 | _ => block_lanes w end.
Definition h1_sel (w : Z) (o : shop1) : Z -> src :=
  match o with
  | HMoveL n => p_move_l (block_lanes w) n
  | HMoveR n => p_move_r (block_lanes w) n
  | HPermute2 s0 s1 => p_permute2 s0 s1
  | HPermute4 s0 s1 s2 s3 => p_permute4 s0 s1 s2 s3
  | HSplat n => p_splat n
  end.
Definition h2_group (w : Z) (o : shop2) : Z :=
  match o with HShuffle1 _ _ => 2 | HShuffle2 _ _ _ _ => 4 | _ => block_lanes w end.
Definition h2_sel (w : Z) (o : shop2) : Z -> src :=
  match o with
  | HZipLo => p_zip_lo (block_lanes w)
  | HZipHi => p_zip_hi (block_lanes w)
  | HUnzipLo => p_unzip_lo (block_lanes w)
  | HUnzipHi => p_unzip_hi (block_lanes w)
  | HAlign n => p_align (block_lanes w) n
  | HShuffle1 s0 s1 => p_shuffle1 s0 s1
  | HShuffle2 a0 a1 b0 b1 => p_shuffle2 a0 a1 b0 b1
  end.
(** lane i of the rearranged vector; f m is the m-th argument as a function of the lane *)
Definition from_group (g : Z) (L : Z -> src) (f : nat -> nat -> Z) (i : nat) : Z :=
  match L (Z.of_nat i mod g) with
  | None => 0
  | Some (m, j) => f m (Z.to_nat (g * (Z.of_nat i / g) + j))
  end.
Definition args1 (f : nat -> Z) (m : nat) : nat -> Z := match m with O => f | _ => fun _ => 0 end.
Definition args2 (f g : nat -> Z) (m : nat) : nat -> Z := match m with O => f | 1%nat => g | _ => fun _ => 0 end.

Definition x1_val (w : Z) (o : xop1) (x : Z) : Z :=
  match o with XNeg => s_neg w x | XAbs => s_abs w x | XPopcnt => s_popcnt w x end.
Definition mul_hi_val (sg : bool) (w x y : Z) : Z := if sg then s_mul_hi_s w x y else s_mul_hi_u w x y.
(** lane i of a program, given all lanes of each variable *)
Fixpoint s_val (w : Z) (e : sexp) (env : nat -> nat -> Z) : nat -> Z :=
  match e with
  | SVar n => env n
  | SConst c => fun _ => c mod 2 ^ w
  | SUn o e => fun i => u_val w o (s_val w e env i)
  | SBin o e1 e2 => fun i => b_val w o (s_val w e1 env i) (s_val w e2 env i)
  | SBlend on off m => fun i => if sm_val w m env i then s_val w on env i else s_val w off env i
  | SX1 o e => fun i => x1_val w o (s_val w e env i)
  | SMulHi sg e1 e2 => fun i => mul_hi_val sg w (s_val w e1 env i) (s_val w e2 env i)
  | SSh1 o e => from_group (h1_group w o) (h1_sel w o) (args1 (s_val w e env))
  | SSh2 o e1 e2 => from_group (h2_group w o) (h2_sel w o) (args2 (s_val w e1 env) (s_val w e2 env))
  end
with sm_val (w : Z) (m : smexp) (env : nat -> nat -> Z) : nat -> bool :=
  match m with
  | SCmp o e1 e2 => fun i => c_val w o (s_val w e1 env i) (s_val w e2 env i)
  | SMBin o m1 m2 => fun i => k_val o (sm_val w m1 env i) (sm_val w m2 env i)
  | SMNot m => fun i => negb (sm_val w m env i)
  end.

(** which rearrangements exist for which element widths, with which template arguments *)
Definition h1_fine (w : ew) (o : shop1) : Prop :=
  match o with
  | HMoveL n | HMoveR n => 0 <= n <= block_lanes (wb w)
  | HPermute2 s0 s1 => w <> W8 /\ 0 <= s0 < 2 /\ 0 <= s1 < 2
  | HPermute4 s0 s1 s2 s3 => (w = W16 \/ w = W32) /\ 0 <= s0 < 4 /\ 0 <= s1 < 4 /\ 0 <= s2 < 4 /\ 0 <= s3 < 4
  | HSplat n => 0 <= n < block_lanes (wb w)
  end.
Definition h2_fine (w : ew) (o : shop2) : Prop :=
  match o with
  | HAlign n => 0 <= n <= block_lanes (wb w)
  | HShuffle1 s0 s1 => w = W64 /\ 0 <= s0 < 2 /\ 0 <= s1 < 2
  | HShuffle2 a0 a1 b0 b1 => w = W32 /\ 0 <= a0 < 4 /\ 0 <= a1 < 4 /\ 0 <= b0 < 4 /\ 0 <= b1 < 4
  | _ => True
  end.
(** negation and absolute value of the least 32 and 64-bit integer are undefined on the null backend *)
Definition x1_fine (w : ew) (o : xop1) : Prop := match o with XPopcnt => True | _ => w = W8 \/ w = W16 end.
Fixpoint s_fine (w : ew) (e : sexp) : Prop :=
  match e with
  | SVar _ | SConst _ => True
  | SUn o e => u_fine w o /\ s_fine w e
  | SBin o e1 e2 => b_fine w o /\ s_fine w e1 /\ s_fine w e2
  | SBlend e1 e2 m => s_fine w e1 /\ s_fine w e2 /\ sm_fine w m
  | SX1 o e => x1_fine w o /\ s_fine w e
  | SMulHi _ e1 e2 => w = W16 /\ s_fine w e1 /\ s_fine w e2
  | SSh1 o e => h1_fine w o /\ s_fine w e
  | SSh2 o e1 e2 => h2_fine w o /\ s_fine w e1 /\ s_fine w e2
  end
with sm_fine (w : ew) (m : smexp) : Prop :=
  match m with
  | SCmp o e1 e2 => c_fine w o /\ s_fine w e1 /\ s_fine w e2
  | SMBin _ m1 m2 => sm_fine w m1 /\ sm_fine w m2
  | SMNot m => sm_fine w m
  end.
