(** C14: reduce_mul. *)
From Verif Require Import Spec.Reduce Model.ReduceMul Proof.ReduceP3 Proof.ReduceMulP Proof.ReduceMulP2 Proof.ReduceMulP4 Thm.T_Reduce.

(** the scalar and ALTIVEC implementations multiply int32_t values one after another: no product of some of the lanes may overflow.
    It suffices that the product of the magnitudes of the nonzero lanes is below 2^31. *)
Definition no_overflow (sg : bool) (A : arch) (w : ew) (l : list Z) : Prop :=
  sg = true -> w = W16 -> use_null A = true \/ use_altivec A = true ->
  product (map (fun x => Z.max 1 (Z.abs (value true 16 x))) l) < 2 ^ 31.
(** the vectors of several registers for which a correct implementation exists *)
Definition mul_impl (A : arch) (w : ew) (va : vec) : Prop :=
  length va = 1%nat \/ (w = W16 /\ use_avx512bw A = false) \/ (w = W32 /\ use_avx512f A = false).

Theorem reduce_mul_partial : forall A fp sg w s va, valid_arch A = true -> aligned64 fp -> avail_int A (wb w) s = true ->
  w = W16 \/ w = W32 -> native_shape A (wb w) s va -> mul_impl A w va -> no_overflow sg A w (lanes (wb w) s va) ->
  wfv s va -> va <> [] ->
  exists r, reduce_mul A fp sg w s va = Ok r /\ s_reduce_mul sg (wb w) 32 (lanes (wb w) s va) r.
Proof.
  intros A fp sg w s va HV Hfp HA Hw HS HI HO Hva Hn. unfold s_reduce_mul.
  assert (Y : yields 32 (match w with W16 => reduce_mul16 A fp sg s va | W32 => reduce_mul32 A fp s va | _ => NotImpl end)
    (product (map (value sg (wb w)) (lanes (wb w) s va)))).
  { destruct Hw as [-> | ->]; cbn [wb] in *.
    - assert (N : need A sg (lanes 16 s va)).
      { intros -> Hb. unfold safe, mags. rewrite map_map. apply HO; auto. }
      destruct va as [|a [|b va]]; [contradiction Hn; reflexivity| |].
      + cbn [reduce_mul16]. rewrite <- one_product. apply mul16_one; auto. inversion Hva; auto.
      + unfold reduce_mul16. destruct HS as [HS|HS]; [discriminate HS|]. destruct HI as [HI|[[_ HI]|[HI _]]]; [discriminate HI| |discriminate HI].
        apply mul16_multi; auto.
    - assert (Y : yields 32 (reduce_mul32 A fp s va) (product (map (value false 32) (lanes 32 s va)))).
      { destruct va as [|a [|b va]]; [contradiction Hn; reflexivity| |].
        + cbn [reduce_mul32]. rewrite <- one_product. apply mul32_one; auto. inversion Hva; auto.
        + unfold reduce_mul32. destruct HS as [HS|HS]; [discriminate HS|]. destruct HI as [HI|[[HI _]|[_ HI]]]; [discriminate HI|discriminate HI|].
          apply mul32_multi; auto. }
      eapply yields_cg; [exact Y|]. generalize (lanes 32 s va). intros l. induction l as [|x l IH]; [apply cg_refl|].
      cbn [map product fold_right]. apply cg_mul; [lia| |exact IH]. apply cg_sym. destruct sg; [|apply cg_refl]. apply cg_value. lia. }
  destruct Y as (x & E & C). unfold reduce_mul. rewrite E. cbn [bind]. eexists. split; [reflexivity|].
  rewrite (cconv_cg (sg, 32) _ _ ltac:(cbn; lia) C). unfold cconv, value. cbn [fst snd]. destruct sg; [|reflexivity]. symmetry. apply sgn_wrap; lia.
Qed.
(** a 16-bit vector of several registers with AVX512BW: the odd 32-bit lanes of the accumulated products, which are not
    part of the result, are multiplied in.  The product of 64 ones is not 1. *)
Theorem reduce_mul_16_avx512bw_refuted : valid_arch arch_avx512all = true /\
  reduce_mul arch_avx512all 0 false W16 R512 [splat 16 512 1; splat 16 512 1] <> Ok 1.
Proof. split; vm_compute; [reflexivity|discriminate]. Qed.
(** a 32-bit vector of several registers with AVX512F does not compile *)
Theorem reduce_mul_32_avx512f_refuted : valid_arch arch_avx512f = true /\ reduce_mul arch_avx512f 0 false W32 R512 [1; 1] = NotImpl.
Proof. split; vm_compute; reflexivity. Qed.
(** signed overflow in the scalar implementation *)
Theorem reduce_mul_16_null_refuted : valid_arch arch_null = true /\ reduce_mul arch_null 0 true W16 R128 [splat 16 128 1000] = UB.
Proof. split; vm_compute; reflexivity. Qed.
(** non-trivial cases: several registers, the signed widening products, wrap-around *)
Example reduce_mul_case :
  reduce_mul arch_sse2 0 true W16 R128 [splat 16 128 0xffff; splat 16 128 3] = Ok 6561 /\
  reduce_mul arch_sse2 0 true W16 R128 [splat 16 128 (2 ^ 16 - 5)] = Ok 390625 /\
  reduce_mul arch_avx2 0 false W32 R256 [splat 32 256 3; splat 32 256 5] = Ok ((15 ^ 8) mod 2 ^ 32) /\
  reduce_mul arch_altivec 0 true W16 R128 [0x00010001000100010001000100020000 + 0xfffd] = Ok (-6) /\
  reduce_mul arch_neon32 0 false W16 R128 [splat 16 128 7] = Ok (7 ^ 8) /\
  reduce_mul arch_msa 0 true W32 R128 [2 ^ 128 - 1; splat 32 128 3] = Ok 81 /\
  reduce_mul arch_avx512all 0 true W16 R512 [splat 16 512 0xfffe] = Ok 0.
Proof. split; [|split; [|split; [|split; [|split; [|split]]]]]; vm_compute; reflexivity. Qed.
