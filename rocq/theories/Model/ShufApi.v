(** Public lane rearrangements: each applies the register function to every register of the
    vector (SIMDPP_VEC_ARRAY_IMPL1/2).  Signed and unsigned types share one implementation
    (the arguments are reinterpreted). *)
From Verif Require Export Model.Permute.

(** core/move_l.h:36-134, move_r.h:36-136 (move16_l .. move2_l) *)
Definition move_l A e s (sh : Z) (va : vec) : res vec := vec_impl1 (i_move_l_wrapper A e s sh) va.
Definition move_r A e s (sh : Z) (va : vec) : res vec := vec_impl1 (i_move_r_wrapper A e s sh) va.
(** core/zip_lo.h:38-74, zip_hi.h:38-74 (zip16_lo .. zip2_lo) *)
Definition zip_lo A e s (va vb : vec) : res vec := vec_impl2 (i_zip A e s false) va vb.
Definition zip_hi A e s (va vb : vec) : res vec := vec_impl2 (i_zip A e s true) va vb.
(** core/permute2.h:42-131 *)
Definition permute2 A e s (s0 s1 : Z) (va : vec) : res vec := vec_impl1 (i_permute2 A e s s0 s1) va.
(** core/permute4.h:40-138, 16- and 32-bit elements *)
Definition permute4 A e s (s0 s1 s2 s3 : Z) (va : vec) : res vec := vec_impl1 (i_permute4 A e s s0 s1 s2 s3) va.
(** core/splat_n.h:40-185 (splat16<i> .. splat2<i>) *)
Definition splat_n A e s (i : Z) (va : vec) : res vec := vec_impl1 (i_splat_n A e s i) va.
