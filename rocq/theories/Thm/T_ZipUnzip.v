(** C17: zip and unzip invert each other. *)
From Verif Require Import Proof.UnzipP Model.ShufApi2 Thm.T_Shuffle.

Section I.
  Variables (w : Z) (s : rsz) (n : Z) (F G P Q : Z -> src) (f g p q : Z -> Z -> res Z).
  Let OK (o : Z -> Z -> res Z) (L : Z -> src) :=
    forall a b, reg (rbits s) a -> reg (rbits s) b -> o a b = Ok (lsh w (rbits s) n L [a; b]).
  Hypothesis Hg : gok w (rbits s) n = true.
  Hypothesis HF : OK f F. Hypothesis HG : OK g G. Hypothesis HP : OK p P. Hypothesis HQ : OK q Q.
  Hypothesis IP : in_range n P = true. Hypothesis IQ : in_range n Q = true.
  Hypothesis CP : forallb (fun k => src_eqb (comp P [F; G] k) (fromA k)) (zrange n) = true.
  Hypothesis CQ : forallb (fun k => src_eqb (comp Q [F; G] k) (fromB k)) (zrange n) = true.
  Lemma inverse_pair va vb : wfv s va -> wfv s vb -> length va = length vb ->
    exists x y, vec_impl2 f va vb = Ok x /\ vec_impl2 g va vb = Ok y /\ length x = length va /\ length y = length va /\
      vec_impl2 p x y = Ok va /\ vec_impl2 q x y = Ok vb.
  Proof.
    destruct (gok_spec _ _ _ Hg) as (Hw & _).
    revert vb. induction va as [|a va IH]; intros [|b vb] Ha Hb HL; try discriminate HL.
    - exists [], []. repeat split; reflexivity.
    - apply wfv_cons in Ha as [Ra Ha]. apply wfv_cons in Hb as [Rb Hb].
      destruct (IH vb Ha Hb ltac:(cbn in HL; lia)) as (x & y & E1 & E2 & L1 & L2 & E3 & E4).
      exists (lsh w (rbits s) n F [a; b] :: x), (lsh w (rbits s) n G [a; b] :: y). cbn [vec_impl2].
      rewrite HF, HG, E1, E2 by auto. cbn [bind].
      rewrite HP, HQ, E3, E4 by (apply lsh_reg; auto). cbn [bind length].
      change [lsh w (rbits s) n F [a; b]; lsh w (rbits s) n G [a; b]] with (map (fun M => lsh w (rbits s) n M [a; b]) [F; G]).
      rewrite !lsh_comp by auto.
      split; [reflexivity|]. split; [reflexivity|]. split; [lia|]. split; [lia|]. split.
      + do 2 f_equal. rewrite <- (lsh_id w (rbits s) n [a; b] 0 a) at 2 by auto. apply lsh_extb; auto.
      + do 2 f_equal. rewrite <- (lsh_id w (rbits s) n [a; b] 1 b) at 2 by auto. apply lsh_extb; auto.
  Qed.
End I.

Theorem unzip_inverts_zip : forall A e s va vb, valid_arch A = true -> avail_et A e s = true ->
  wfv s va -> wfv s vb -> length va = length vb ->
  exists lo hi, zip_lo A e s va vb = Ok lo /\ zip_hi A e s va vb = Ok hi /\ length lo = length va /\ length hi = length va /\
    unzip_lo A e s lo hi = Ok va /\ unzip_hi A e s lo hi = Ok vb.
Proof.
  intros A e s va vb HV HA Ha Hb HL.
  apply (inverse_pair (eb e) s (en e) (p_zip_lo (en e)) (p_zip_hi (en e)) (p_unzip_lo (en e)) (p_unzip_hi (en e)));
    try apply gok_en; auto; try (destruct e; reflexivity).
  - intros a b Ra Rb. apply (i_zip_ok A e s false); auto.
  - intros a b Ra Rb. apply (i_zip_ok A e s true); auto.
  - intros a b Ra Rb. apply i_unzip_lo_ok; auto.
  - intros a b Ra Rb. apply i_unzip_hi_ok; auto.
Qed.
Theorem zip_inverts_unzip : forall A e s va vb, valid_arch A = true -> avail_et A e s = true ->
  wfv s va -> wfv s vb -> length va = length vb ->
  exists ev od, unzip_lo A e s va vb = Ok ev /\ unzip_hi A e s va vb = Ok od /\ length ev = length va /\ length od = length va /\
    zip_lo A e s ev od = Ok va /\ zip_hi A e s ev od = Ok vb.
Proof.
  intros A e s va vb HV HA Ha Hb HL.
  apply (inverse_pair (eb e) s (en e) (p_unzip_lo (en e)) (p_unzip_hi (en e)) (p_zip_lo (en e)) (p_zip_hi (en e)));
    try apply gok_en; auto; try (destruct e; reflexivity).
  - intros a b Ra Rb. apply i_unzip_lo_ok; auto.
  - intros a b Ra Rb. apply i_unzip_hi_ok; auto.
  - intros a b Ra Rb. apply (i_zip_ok A e s false); auto.
  - intros a b Ra Rb. apply (i_zip_ok A e s true); auto.
Qed.
(** the hypotheses are met by e.g. two-register 8-bit vectors on AVX2 *)
Example zip_unzip_case :
  valid_arch arch_avx2 = true /\ avail_et arch_avx2 I8 R256 = true /\ wfv R256 [1; 2] /\ wfv R256 [3; 4] /\
  zip_lo arch_avx2 I8 R256 [1; 2] [3; 4] = Ok [769; 1026].
Proof.
  split; [reflexivity|]. split; [reflexivity|].
  split; [repeat constructor; vm_compute; discriminate|]. split; [repeat constructor; vm_compute; discriminate|].
  vm_compute. reflexivity.
Qed.
