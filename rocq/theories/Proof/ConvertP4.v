From Verif Require Import Proof.SelTac.
From Verif Require Export Proof.ConvertP3.

Lemma f_not_bw_conf A : valid_arch A = true -> f_not_bw A = true ->
  use_avx512bw A = false /\ use_avx512f A = true /\ use_avx2 A = true.
Proof.
  intros HV H. unfold f_not_bw in H. apply andb_true_iff in H as [H1 H2]. apply negb_true_iff in H2.
  destruct (valid_imp A HV) as (_ & _ & _ & Hf & _). auto.
Qed.
Lemma perk_gen A w w' : valid_arch A = true -> f_not_bw A = false -> (w = 8 \/ w = 16) -> w' = 64 -> Z.to_nat (w' / w) = per A w w' (fast_int A w).
Proof.
  intros HV HN Hw ->. unfold f_not_bw in HN.
  destruct Hw as [-> | ->]; unfold per, vlen, vreg, fast_int;
  destruct (rconf_ok _ HV); rewrite ?H, ?H0, ?H1 in *; try discriminate HN; reflexivity.
Qed.
Theorem ext_16_64_ok A sg T : valid_arch A = true -> vsize T -> (f_not_bw A = true -> T <= 512) ->
  converts A 16 64 T (ext_16_64 A sg T) (s_extend sg 16 64).
Proof.
  intros HV HT HN.
  assert (forall T', vsize T' -> (f_not_bw A = true -> T' = rbits (vreg A 16 T')) -> converts A 16 64 T' (conv_vec A 16 64 T' 4 (i_ext_16_64 A sg)) (s_extend sg 16 64)) as HG.
  { intros T' HT' HS. apply conv_typed; auto; [unfold wpair; auto|intros; apply i_ext_16_64_ok; auto|].
    intros Hne. destruct (f_not_bw A) eqn:E; [exfalso; auto|]. apply (perk_gen A 16 64); auto. }
  destruct (f_not_bw A) eqn:EN.
  - destruct (f_not_bw_conf A HV EN) as (Eb & Ef & E2). specialize (HN eq_refl).
    destruct (vsize_div _ HT) as [-> |[-> |[-> |[? _]]]]; [| | |lia].
    + intros va Hva. destruct (typed_single _ _ _ _ Hva eq_refl) as (a & -> & _). apply HG; auto.
    + assert (256 = rbits (vreg A 16 256)) as ES by (unfold vreg, fast_int; rewrite Eb, Ef; reflexivity).
      intros va Hva. destruct (typed_single _ _ _ _ Hva ES) as (a & -> & _). apply HG; auto.
    + intros va Hva. pose proof (typed_len _ _ _ _ Hva) as HL.
      assert (vreg A 16 512 = R256) as EV by (unfold vreg, fast_int; rewrite Eb, Ef; reflexivity).
      unfold vlen in HL. rewrite EV in HL. change (Z.to_nat (512 / rbits R256)) with 2%nat in HL.
      destruct va as [|a [|b [|c va]]]; try discriminate HL.
      destruct Hva as [W _]. rewrite EV in W. apply wfv_cons in W as [Wa W]. apply wfv_cons in W as [Wb _].
      unfold ext_16_64. rewrite EN. change (true && (512 =? 512)) with true. cbv iota.
      assert (vreg A 64 (512 * 64 / 16) = R512) as EV' by (unfold vreg, fast_int; rewrite Eb, Ef; reflexivity).
      unfold typed, tlanes. rewrite EV, EV'. eexists. split; [reflexivity|].
      assert (forall x, reg 256 x -> cv 16 64 R256 R512 (s_extend sg 16 64) 2 x (Ok [mm_cvt sg 16 64 512 (mm_extract128 0 x); mm_cvt sg 16 64 512 (mm_extract128 1 x)])) as HC.
      { intros x Hx. pose proof (i_ext_16_64_ok A sg R256 x HV E2 Hx) as HC. unfold i_ext_16_64, per, vlen, i_split1 in HC. rewrite E2, Ef in HC.
        replace (vreg A 64 (rbits R256 * 64 / 16)) with R512 in HC by (symmetry; unfold vreg, fast_int; rewrite Eb, Ef; reflexivity). exact HC. }
      destruct (two_regs 16 64 sg [a; b] a b _ _ eq_refl (HC a Wa) (HC b Wb)) as [W1 L1].
      split; [split; [exact W1|reflexivity]|exact L1].
  - intros va Hva. assert (ext_16_64 A sg T va = conv_vec A 16 64 T 4 (i_ext_16_64 A sg) va) as ->.
    { unfold ext_16_64. rewrite EN. destruct va as [|a [|b [|c va]]]; reflexivity. }
    apply HG; auto. discriminate.
Qed.
Theorem ext_8_64_ok A sg T : valid_arch A = true -> vsize T -> (f_not_bw A = true -> T <= 512) ->
  converts A 8 64 T (ext_8_64 A sg T) (s_extend sg 8 64).
Proof.
  intros HV HT HN.
  assert (forall T', vsize T' -> (f_not_bw A = true -> T' = rbits (vreg A 8 T')) -> converts A 8 64 T' (conv_vec A 8 64 T' 8 (i_ext_8_64 A sg)) (s_extend sg 8 64)) as HG.
  { intros T' HT' HS. apply conv_typed; auto; [unfold wpair; auto|intros; apply i_ext_8_64_ok; auto|].
    intros Hne. destruct (f_not_bw A) eqn:E; [exfalso; auto|]. apply (perk_gen A 8 64); auto. }
  destruct (f_not_bw A) eqn:EN.
  - destruct (f_not_bw_conf A HV EN) as (Eb & Ef & E2). specialize (HN eq_refl).
    destruct (vsize_div _ HT) as [-> |[-> |[-> |[? _]]]]; [| | |lia].
    + intros va Hva. destruct (typed_single _ _ _ _ Hva eq_refl) as (a & -> & _). apply HG; auto.
    + assert (256 = rbits (vreg A 8 256)) as ES by (unfold vreg, fast_int; rewrite Eb, Ef; reflexivity).
      intros va Hva. destruct (typed_single _ _ _ _ Hva ES) as (a & -> & _). apply HG; auto.
    + intros va Hva. pose proof (typed_len _ _ _ _ Hva) as HL.
      assert (vreg A 8 512 = R256) as EV by (unfold vreg, fast_int; rewrite Eb, Ef; reflexivity).
      unfold vlen in HL. rewrite EV in HL. change (Z.to_nat (512 / rbits R256)) with 2%nat in HL.
      destruct va as [|a [|b [|c va]]]; try discriminate HL.
      destruct Hva as [W _]. rewrite EV in W. apply wfv_cons in W as [Wa W]. apply wfv_cons in W as [Wb _].
      unfold ext_8_64. rewrite EN. change (true && (512 =? 512)) with true. cbv iota.
      assert (vreg A 64 (512 * 64 / 8) = R512) as EV' by (unfold vreg, fast_int; rewrite Eb, Ef; reflexivity).
      assert (forall x, reg 256 x -> cv 8 64 R256 R512 (s_extend sg 8 64) 4 x (Ok [mm_cvt sg 8 64 512 (mm_extract128 0 x); mm_cvt sg 8 64 512 (lsh 8 128 16 (p_move_l 16 8) [mm_extract128 0 x]); mm_cvt sg 8 64 512 (mm_extract128 1 x); mm_cvt sg 8 64 512 (lsh 8 128 16 (p_move_l 16 8) [mm_extract128 1 x])])) as HC.
      { intros x Hx. pose proof (i_ext_8_64_ok A sg R256 x HV E2 Hx) as HC. unfold i_ext_8_64, per, vlen, i_split1 in HC. rewrite E2, Ef in HC.
        rewrite !mv8_ok in HC by first [assumption|lia|apply x128_reg]. cbn [bind] in HC.
        replace (vreg A 64 (rbits R256 * 64 / 8)) with R512 in HC by (symmetry; unfold vreg, fast_int; rewrite Eb, Ef; reflexivity). exact HC. }
      unfold i_ext_8_64_8, i_split1. rewrite !mv8_ok by first [assumption|lia|apply x128_reg]. cbn [bind].
      unfold typed, tlanes. rewrite EV, EV'. eexists. split; [reflexivity|].
      destruct (two_regs 8 64 sg [a; b] a b _ _ eq_refl (HC a Wa) (HC b Wb)) as [W1 L1].
      split; [split; [exact W1|reflexivity]|exact L1].
  - intros va Hva. assert (ext_8_64 A sg T va = conv_vec A 8 64 T 8 (i_ext_8_64 A sg) va) as ->.
    { unfold ext_8_64. rewrite EN. destruct va as [|a [|b [|c va]]]; reflexivity. }
    apply HG; auto. discriminate.
Qed.
