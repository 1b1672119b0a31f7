(** Public two-source shuffles, unzips and aligns. *)
From Verif Require Export Model.ShufApi Model.Unzip.

(** core/unzip_lo.h:101-139, unzip_hi.h:97-135 *)
Definition unzip_lo A e s (va vb : vec) : res vec := vec_impl2 (i_unzip_lo A e s) va vb.
Definition unzip_hi A e s (va vb : vec) : res vec := vec_impl2 (i_unzip_hi A e s) va vb.
(** core/align.h:45-194 *)
Definition align A e s (sh : Z) (va vb : vec) : res vec := vec_impl2 (i_align A e s sh) va vb.
(** core/shuffle1.h:51-59 *)
Definition shuffle1 A e s (s0 s1 : Z) (va vb : vec) : res vec := vec_impl2 (i_shuffle1 A e s s0 s1) va vb.
(** core/shuffle2.h:57-66, 104-113: the forms with four and with two selectors *)
Definition shuffle2 A e s (a0 a1 b0 b1 : Z) (va vb : vec) : res vec := vec_impl2 (i_shuffle2 A e s a0 a1 b0 b1) va vb.
Definition shuffle2_2 A e s (s0 s1 : Z) (va vb : vec) : res vec :=
  vec_impl2 (i_shuffle4x2 A e s s0 s1 (s0 + 4) (s1 + 4)) va vb.
(** core/shuffle2x2.h:32-44, 57-69: for NULL, SSE2 and NEON only *)
Definition shuffle2x2 A e s (s0 s1 : Z) (va vb : vec) : res vec :=
  if use_null A || use_sse2 A || use_neon A then vec_impl2 (i_shuffle2x2 A e s s0 s1) va vb else NotImpl.
(** core/shuffle4x2.h:34-46, 32-bit elements *)
Definition shuffle4x2 A e s (s0 s1 s2 s3 : Z) (va vb : vec) : res vec :=
  vec_impl2 (i_shuffle4x2 A e s s0 s1 s2 s3) va vb.
