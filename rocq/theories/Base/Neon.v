(** ARM NEON / AArch64 intrinsics, from the ARM ACLE intrinsics reference.
    Part of the trusted base.  All registers have 128 bits unless said. *)
From Verif Require Export Base.Isa Base.X86.

(** vld1q_dup_u<w> / vdupq_n_u<w> *)
Definition vdupq w c := splat w 128 c.
(** vld1q_u<w> from an array whose i-th element is f i *)
Definition vld1q w (f : Z -> Z) := pack w 128 f.
(** vcombine_u<w>(lo, hi) of two 64-bit halves *)
Definition vcombine (lo hi : Z) := pack 64 128 (fun i => if i =? 0 then lo else hi).
(** vld1_u<w>: 64-bit half from an array *)
Definition vld1 w (f : Z -> Z) := pack w 64 f.
Definition vget_low (a : Z) := lane 64 0 a.
Definition vget_high (a : Z) := lane 64 1 a.

Definition vaddq w := v2 w 128 (fun x y => x + y).
Definition vsubq w := v2 w 128 (fun x y => x - y).
Definition vqaddq_u w := v2 w 128 (fun x y => satu w (x + y)).
Definition vqsubq_u w := v2 w 128 (fun x y => satu w (x - y)).
Definition vqaddq_s w := v2 w 128 (fun x y => sats w (sgn w x + sgn w y)).
Definition vqsubq_s w := v2 w 128 (fun x y => sats w (sgn w x - sgn w y)).
Definition vnegq w := v1 w 128 (fun x => - sgn w x).
Definition vabsq w := v1 w 128 (fun x => Z.abs (sgn w x)).
Definition vmulq w := v2 w 128 (fun x y => x * y).
(** widening multiply of 64-bit halves *)
Definition vmull_u w (a b : Z) := pack (w * 2) 128 (fun i => lane w i a * lane w i b).
Definition vmull_s w (a b : Z) := pack (w * 2) 128 (fun i => sgn w (lane w i a) * sgn w (lane w i b)).
Definition vminq_u w := v2 w 128 (fun x y => if x <? y then x else y).
Definition vmaxq_u w := v2 w 128 (fun x y => if y <? x then x else y).
Definition vminq_s w := v2 w 128 (fun x y => if sgn w x <? sgn w y then x else y).
Definition vmaxq_s w := v2 w 128 (fun x y => if sgn w y <? sgn w x then x else y).
(** halving adds, rounding and truncating *)
Definition vrhaddq_u w := v2 w 128 (fun x y => Z.shiftr (x + y + 1) 1).
Definition vrhaddq_s w := v2 w 128 (fun x y => Z.shiftr (sgn w x + sgn w y + 1) 1).
Definition vhaddq_u w := v2 w 128 (fun x y => Z.shiftr (x + y) 1).
Definition vhaddq_s w := v2 w 128 (fun x y => Z.shiftr (sgn w x + sgn w y) 1).

Definition vandq (a b : Z) := Z.land a b.
Definition vbicq (a b : Z) := Z.ldiff a b.
Definition vorrq (a b : Z) := Z.lor a b.
Definition veorq (a b : Z) := Z.lxor a b.
Definition vmvnq (a : Z) := v1 8 128 (fun x => Z.lnot x) a.
(** vbslq(m, a, b): m ? a : b, bit-wise *)
Definition vbslq (m a b : Z) := Z.lor (Z.land m a) (Z.ldiff b m).

Definition vceqq w := v2 w 128 (fun x y => tf w (x =? y)).
Definition vcltq_u w := v2 w 128 (fun x y => tf w (x <? y)).
Definition vcltq_s w := v2 w 128 (fun x y => tf w (sgn w x <? sgn w y)).
Definition vcleq_u w := v2 w 128 (fun x y => tf w (x <=? y)).
Definition vcleq_s w := v2 w 128 (fun x y => tf w (sgn w x <=? sgn w y)).
Definition vcgtq_u w := v2 w 128 (fun x y => tf w (y <? x)).
Definition vcgtq_s w := v2 w 128 (fun x y => tf w (sgn w y <? sgn w x)).
Definition vcgeq_u w := v2 w 128 (fun x y => tf w (y <=? x)).
Definition vcgeq_s w := v2 w 128 (fun x y => tf w (sgn w y <=? sgn w x)).

#[global] Hint Unfold vdupq vld1q vaddq vsubq vqaddq_u vqsubq_u vqaddq_s vqsubq_s vnegq vabsq vmulq
  vmull_u vmull_s vminq_u vmaxq_u vminq_s vmaxq_s vrhaddq_u vrhaddq_s vhaddq_u vhaddq_s
  vandq vbicq vorrq veorq vmvnq vbslq vceqq vcltq_u vcltq_s vcleq_u vcleq_s vcgtq_u vcgtq_s
  vcgeq_u vcgeq_s : isa.
