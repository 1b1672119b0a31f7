(** A kernel: load vectors from arrays, run a program, store the result.  (C37, C38) *)
From Verif Require Export Spec.SProgram Spec.Mem.

(** The arrays: variable k is array k; a variable without an array is array 0. *)
Definition operand {X} (d : X) (l : list X) (k : nat) : X := nth k l (hd d l).
(** The N numbers the kernel computes from the arrays at [ps]. *)
Definition kernel_result (w : Z) (N : nat) (e : sexp) (ps : list Z) (m : mem) : list Z :=
  map (s_val w e (fun k i => nth i (array w (operand 0 ps k) N m) 0)) (seq 0 N).
(** a T-bit array at p that vectors of any size may be loaded from and stored to *)
Definition good_array (T p : Z) (m : mem) : Prop := p mod 64 = 0 /\ accessible m p (T / 8).
