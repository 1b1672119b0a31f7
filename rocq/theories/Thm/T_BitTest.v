(** C35: test_bits_any, extract_bits_any, extract_bits.  [fp]: the address of the spill buffer some implementations use. *)
From Verif Require Import Spec.BitTest Model.BitTest Proof.BitwiseP Proof.FloatsP Proof.BitTestP Proof.BitTestP2 Proof.BitTestP6 Proof.BitTestP7 Thm.T_Reduce.

(** ---------- test_bits_any: every width, register size and number of registers ---------- *)
Theorem test_bits_any_spec A fp w s : valid_arch A = true -> aligned64 fp -> avail_int A (wb w) s = true -> tests_any (wb w) s (test_bits_any A fp w s).
Proof.
  intros HV Hfp HA va Hva Hn. destruct va as [|a va]; [contradiction Hn; reflexivity|]. inversion Hva as [|? ? Ha Hva']; subst. cbn [test_bits_any].
  destruct (or_rest_ok (i_bit_or A w s) s a va Ha Hva') as (x & E & Hx & N). { intros p q Hp Hq. apply i_bit_or_ok; auto. }
  rewrite E. cbn [bind]. rewrite (i_test_ok A fp HV Hfp w s x HA Hx). eexists. split; [reflexivity|]. rewrite N. apply nz_lanes; auto.
Qed.
Theorem test_bits_any_float_spec A fp d s : valid_arch A = true -> aligned64 fp -> avail_flt A s = true -> tests_any (fw d) s (test_bits_any_f A fp d s).
Proof.
  intros HV Hfp HA va Hva Hn. destruct va as [|a va]; [contradiction Hn; reflexivity|]. inversion Hva as [|? ? Ha Hva']; subst. cbn [test_bits_any_f].
  destruct (or_rest_ok (f_bit_or A d s) s a va Ha Hva') as (x & E & Hx & N). { intros p q Hp Hq. apply f_bit_or_ok; auto. }
  rewrite E. cbn [bind]. rewrite (f_test_ok A fp HV Hfp d s x HA Hx). eexists. split; [reflexivity|]. rewrite N. apply nz_lanes; auto.
Qed.

(** ---------- extract_bits_any: the lanes must be all zeros or all ones, as documented ---------- *)
Theorem extract_bits_any_spec A fp w T va : valid_arch A = true -> aligned64 fp -> T = 128 \/ T = 256 ->
  wfv (vreg A (wb w) T) va -> Z.of_nat (length va) * rbits (vreg A (wb w) T) = T ->
  Forall (fun x => x = 0 \/ x = 2 ^ wb w - 1) (lanes (wb w) (vreg A (wb w) T) va) ->
  exists r, extract_bits_any A fp w T va = Ok r /\
    bits_of (T / wb w) (fun i => negb (lane_no (lanes (wb w) (vreg A (wb w) T) va) i =? 0)) r.
Proof.
  intros HV Hfp HT Hva HL HU. destruct (extract_any_ok A fp HV Hfp w T va HT Hva HL) as (r & p & E & Hp & B). exists r. split; [exact E|].
  eapply bits_of_ext; [|exact B]. intros i Hi. cbv beta. specialize (Hp i Hi). rewrite Forall_forall in HU.
  assert (C : lane_no (lanes (wb w) (vreg A (wb w) T) va) i = 0 \/ lane_no (lanes (wb w) (vreg A (wb w) T) va) i = 2 ^ wb w - 1).
  { unfold lane_no. destruct (nth_in_or_default (Z.to_nat i) (lanes (wb w) (vreg A (wb w) T) va) 0) as [I | ->]; [apply HU; exact I|left; reflexivity]. }
  destruct C as [-> | ->]; [apply Z.bits_0|]. replace (2 ^ wb w - 1) with (Z.ones (wb w)) by (rewrite Z.ones_equiv; lia).
  rewrite Z.ones_spec_low by lia. destruct w; reflexivity.
Qed.
(** ---------- extract_bits<id>: any bytes ---------- *)
Theorem extract_bits_spec A fp id T va : valid_arch A = true -> aligned64 fp -> 0 <= id < 8 -> T = 128 \/ T = 256 ->
  wfv (vreg A 8 T) va -> Z.of_nat (length va) * rbits (vreg A 8 T) = T ->
  exists r, extract_bits_n A fp id T va = Ok r /\ bits_of (T / 8) (fun i => Z.testbit (lane_no (lanes 8 (vreg A 8 T) va) i) id) r.
Proof. intros HV Hfp Hid HT Hva HL. apply extract_bits_T; auto. Qed.

(** without the precondition extract_bits_any differs between instruction sets (as documented): lanes 1 *)
Theorem extract_bits_any_differs : valid_arch arch_null = true /\ valid_arch arch_sse2 = true /\
  extract_bits_any arch_null 0 W8 128 [splat 8 128 1] = Ok 0xffff /\ extract_bits_any arch_sse2 0 W8 128 [splat 8 128 1] = Ok 0.
Proof. split; [|split; [|split]]; vm_compute; reflexivity. Qed.
(** concrete cases *)
Definition bt_ex : Z := 0xff0000ff00ffff000000000000ff00ff.
Example bit_test_case :
  test_bits_any arch_sse2 0 W8 R128 [0; 2 ^ 100] = Ok true /\ test_bits_any arch_neon32 0 W64 R128 [0; 0] = Ok false /\
  test_bits_any_f arch_avx 0 true R256 [0; 2 ^ 255] = Ok true /\ test_bits_any arch_altivec 0 W16 R128 [2 ^ 127] = Ok true /\
  extract_bits_any arch_altivec 0 W8 128 [bt_ex] = Ok 0x9605 /\ extract_bits_any arch_neon64 0 W8 128 [bt_ex] = Ok 0x9605 /\
  extract_bits_any arch_msa 0 W16 128 [2 ^ 128 - 2 ^ 16] = Ok 0xfe /\ extract_bits_any arch_avx2 0 W32 256 [2 ^ 256 - 2 ^ 64] = Ok 0xfc /\
  extract_bits_any arch_null 0 W64 256 [2 ^ 64 - 1; 2 ^ 128 - 2 ^ 64] = Ok 9 /\
  extract_bits_n arch_msa 0 3 128 [0x08f7ff0008f7ff0008f7ff0008f7ff00] = Ok 0xaaaa /\
  extract_bits_n arch_avx2 0 3 256 [0x08] = Ok 1 /\ vreg arch_avx2 8 256 = R256 /\ vreg arch_msa 8 256 = R128.
Proof. split; [|split; [|split; [|split; [|split; [|split; [|split; [|split; [|split; [|split; [|split; [|split]]]]]]]]]]]; vm_compute; reflexivity. Qed.
