(** C14: reduce_popcnt.  A vector of T bits: [va] are the registers of its type. *)
From Verif Require Import Spec.Reduce Model.ReducePop Proof.ConvertP Proof.CastP Proof.ReduceP3 Proof.ReducePopP Thm.T_Reduce Thm.T_Cast.

Theorem reduce_popcnt_spec : forall A fp w T va, valid_arch A = true -> aligned64 fp -> vsize T ->
  wfv (vreg A (wb w) T) va -> Z.of_nat (length va) * rbits (vreg A (wb w) T) = T ->
  exists r, reduce_popcnt A fp w T va = Ok r /\ s_reduce_popcnt (wb w) (lanes (wb w) (vreg A (wb w) T) va) r.
Proof.
  intros A fp w T va HV Hfp HT Hva HL.
  assert (C : exists v, (match w with W32 => Ok va | _ => bit_cast A (TInt w) (TInt W32) T va end) = Ok v /\ wfv (vreg A 32 T) v /\
    lanes 32 (vreg A 32 T) v = lanes 32 (vreg A (wb w) T) va).
  { destruct (bit_cast_spec A (TInt w) (TInt W32) T va HV HT Hva HL) as (v & E & Hv & _ & EL). cbn [vty_reg] in *. specialize (EL 32 ltac:(auto)).
    destruct w; [exists v; auto|exists v; auto|exists va; auto|exists v; auto]. }
  destruct C as (v & E & Hv & EL). unfold reduce_popcnt. rewrite E. cbn [bind].
  assert (HA : avail_int A 32 (vreg A 32 T) = true) by (apply vreg_avail; auto).
  assert (W32 : wok 32 (rbits (vreg A (wb w) T)) = true) by (apply (wok_lib W32)).
  assert (Y : yields 32 (i_reduce_popcnt A fp (vreg A 32 T) v) (total (map (s_popcnt 32) (lanes 32 (vreg A 32 T) v)))).
  { pose proof (red_popN_ok A fp HV Hfp (vreg A 32 T) v HA Hv 0) as Y. rewrite Z.add_0_l in Y.
    destruct v as [|a [|b v]]; cbn [i_reduce_popcnt]; try exact Y. inversion Hv; subst. rewrite <- pc_total. cbn [map total fold_right].
    rewrite Z.add_0_r. apply red_pop1_ok; auto. }
  destruct Y as (x & Ex & Cx). rewrite Ex. cbn [bind]. eexists. split; [reflexivity|]. unfold s_reduce_popcnt.
  rewrite (lanes_cnt (wb w)) by (auto; apply wok_lib). rewrite <- EL. exact Cx.
Qed.
(** non-trivial cases: the POPCNT instruction, scalar code, VCNT, a 512-bit vector of bytes on AVX512F *)
Example reduce_popcnt_case :
  reduce_popcnt arch_avx2 0 W8 256 [2 ^ 256 - 2 ^ 3] = Ok 253 /\
  reduce_popcnt arch_null 0 W16 256 [0xff; 2 ^ 128 - 1] = Ok 136 /\
  reduce_popcnt arch_neon32 0 W64 128 [2 ^ 128 - 1] = Ok 128 /\
  reduce_popcnt arch_avx512f 0 W8 512 [2 ^ 255; 2 ^ 255 + 1] = Ok 3 /\
  vreg arch_avx512f 8 512 = R256 /\ vreg arch_avx512f 32 512 = R512.
Proof. split; [|split; [|split; [|split; [|split]]]]; vm_compute; reflexivity. Qed.
