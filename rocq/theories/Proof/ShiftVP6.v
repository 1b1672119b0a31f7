(** Shifts by a vector of counts: the ladders *)
From Verif Require Import Model.ShiftV Proof.CppLemmas Proof.ShiftP Proof.PopcntP Proof.ShiftVP Proof.ShiftVP2 Proof.ShiftVP3 Proof.ShiftVP4 Proof.ShiftVP5.

Section P.
  Variables (A : arch) (s : rsz).
  Hypotheses (HV : valid_arch A = true).
  Notation R := (rbits s).
  Lemma ss3_sse : use_sse2 A = true -> byte_shifts A = true -> use_null A = false -> use_ssse3 A = true.
  Proof. intros H1 H2 H3. unfold byte_shifts in H2. rewrite H3 in H2. destruct (use_ssse3 A) eqn:E; auto. exfalso. destruct (use_neon A) eqn:E1; [fam HV; fcontra|]. destruct (use_altivec A) eqn:E2; [fam HV; fcontra|]. destruct (use_msa A) eqn:E3; [fam HV; fcontra|]. discriminate H2. Qed.
  Lemma avx2_ss3 : use_avx2 A = true -> use_ssse3 A = true /\ use_null A = false.
  Proof. intros H. split; [destruct (use_ssse3 A) eqn:E; auto; vimp HV|destruct (use_null A) eqn:E; auto; fam HV; fcontra]. Qed.
  Lemma bw_i16 : use_sse2 A = true -> use_null A = false -> has_shift_r_v A true W16 = true -> use_avx512bw A = true.
  Proof. intros H1 H3 H2. unfold has_shift_r_v in H2. rewrite H3 in H2. destruct (use_avx512bw A) eqn:E; auto. exfalso. destruct (use_neon A) eqn:E1; [fam HV; fcontra|]. destruct (use_altivec A) eqn:E2; [fam HV; fcontra|]. destruct (use_msa A) eqn:E3; [fam HV; fcontra|]. discriminate H2. Qed.
  Section L.
    Variables (a c : Z).
    Hypotheses (Ha : reg R a) (Hc : reg R c).
    Lemma l16 : avail_int A 16 s = true -> byte_shifts A = true -> cok 16 R c -> i_shift_l_v16 A s a c = Ok (v2 16 R Z.shiftl a c).
    Proof.
      intros HA HB HC. unfold i_shift_l_v16. destruct s; cbn [rbits avail_int] in *.
      - apply (sv_ladder_ok A HV R128); auto; try (first [apply neon_slv|apply vec_slv|apply msa_slv]; auto; lia).
        + intros _. apply (null_shl_v_ok W16); exact HC.
        + intros Hn Hx. rewrite (ss3_sse Hx HB Hn). destruct (use_avx512bw A && use_avx512vl A); [f_equal; apply mm_sllv_ok; auto|]. apply (shl16_mul_ok A R128); auto using ss3_sse.
      - rewrite HA. destruct (avx2_ss3 HA) as [E1 E2]. destruct (use_avx512bw A && use_avx512vl A); [f_equal; apply mm_sllv_ok; auto|]. apply (shl16_mul_ok A R256); auto.
      - change (16 <=? 16) with true in HA. cbv iota in HA. rewrite HA. f_equal. apply mm_sllv_ok; auto.
    Qed.
    Lemma ru16 : avail_int A 16 s = true -> byte_shifts A = true -> cok 16 R c -> i_shift_r_v_u16 A s a c = Ok (v2 16 R (fr false 16) a c).
    Proof.
      intros HA HB HC. unfold i_shift_r_v_u16. destruct s; cbn [rbits avail_int] in *.
      - apply (sv_ladder_ok A HV R128); auto; try (first [apply (neon_srv 16 eq_refl a c HC ltac:(lia) false)|apply vec_srv|apply msa_srv]; auto; lia).
        + intros _. apply (null_shr_v_ok false W16); exact HC.
        + intros Hn Hx. rewrite (ss3_sse Hx HB Hn). destruct (use_avx512bw A && use_avx512vl A); [f_equal; apply mm_srlv_ok; auto|]. apply (shr16_mul_ok A R128); auto using ss3_sse.
      - rewrite HA. destruct (avx2_ss3 HA) as [E1 E2]. destruct (use_avx512bw A && use_avx512vl A); [f_equal; apply mm_srlv_ok; auto|]. apply (shr16_mul_ok A R256); auto.
      - change (16 <=? 16) with true in HA. cbv iota in HA. rewrite HA. f_equal. apply mm_srlv_ok; auto.
    Qed.
    Lemma ri16 : avail_int A 16 s = true -> has_shift_r_v A true W16 = true -> cok 16 R c -> i_shift_r_v_i16 A s a c = Ok (v2 16 R (fr true 16) a c).
    Proof.
      intros HA HB HC. unfold i_shift_r_v_i16. destruct s; cbn [rbits avail_int] in *.
      - apply (sv_ladder_ok A HV R128); auto; try (first [apply (neon_srv 16 eq_refl a c HC ltac:(lia) true)|apply vec_srav|apply msa_srav]; auto; lia).
        + intros _. apply (null_shr_v_ok true W16); exact HC.
        + intros Hn Hx. rewrite (bw_i16 Hx Hn HB). cbn [andb]. destruct (use_avx512vl A); f_equal; [apply mm_srav_ok; auto|]. apply srav_wide; auto.
      - rewrite HA. destruct (avx2_ss3 HA) as [E1 E2]. rewrite (bw_i16 ltac:(destruct (use_sse2 A) eqn:E; [reflexivity|vimp HV]) E2 HB). cbn [andb]. destruct (use_avx512vl A); f_equal; [apply mm_srav_ok; auto|]. apply srav_wide; auto.
      - change (16 <=? 16) with true in HA. cbv iota in HA. rewrite HA. f_equal. apply mm_srav_ok; auto.
    Qed.
    Lemma l32 : avail_int A 32 s = true -> cok 32 R c -> i_shift_l_v32 A s a c = Ok (v2 32 R Z.shiftl a c).
    Proof.
      intros HA HC. unfold i_shift_l_v32. destruct s; cbn [rbits avail_int] in *.
      - apply (sv_ladder_ok A HV R128); auto; try (first [apply neon_slv|apply vec_slv|apply msa_slv]; auto; lia).
        + intros _. apply (null_shl_v_ok W32); exact HC.
        + intros Hn Hx. rewrite <- (mm_sllv_ok 32 128 eq_refl a c HC). destruct (use_avx2 A); [reflexivity|]. apply (four_shifts_ok A HV (mm_sll 32 128) (fun k x => if k <? 32 then Z.shiftl x k else 0)); auto.
      - rewrite HA. f_equal. apply mm_sllv_ok; auto.
      - change (32 <=? 16) with false in HA. cbv iota in HA. rewrite HA. f_equal. apply mm_sllv_ok; auto.
    Qed.
    Lemma ru32 : avail_int A 32 s = true -> cok 32 R c -> i_shift_r_v_u32 A s a c = Ok (v2 32 R (fr false 32) a c).
    Proof.
      intros HA HC. unfold i_shift_r_v_u32. destruct s; cbn [rbits avail_int] in *.
      - apply (sv_ladder_ok A HV R128); auto; try (first [apply (neon_srv 32 eq_refl a c HC ltac:(lia) false)|apply vec_srv|apply msa_srv]; auto; lia).
        + intros _. apply (null_shr_v_ok false W32); exact HC.
        + intros Hn Hx. rewrite <- (mm_srlv_ok 32 128 eq_refl a c HC). destruct (use_avx2 A); [reflexivity|]. apply (four_shifts_ok A HV (mm_srl 32 128) (fun k x => if k <? 32 then Z.shiftr x k else 0)); auto.
      - rewrite HA. f_equal. apply mm_srlv_ok; auto.
      - change (32 <=? 16) with false in HA. cbv iota in HA. rewrite HA. f_equal. apply mm_srlv_ok; auto.
    Qed.
    Lemma ri32 : avail_int A 32 s = true -> cok 32 R c -> i_shift_r_v_i32 A s a c = Ok (v2 32 R (fr true 32) a c).
    Proof.
      intros HA HC. unfold i_shift_r_v_i32. destruct s; cbn [rbits avail_int] in *.
      - apply (sv_ladder_ok A HV R128); auto; try (first [apply (neon_srv 32 eq_refl a c HC ltac:(lia) true)|apply vec_srav|apply msa_srav]; auto; lia).
        + intros _. apply (null_shr_v_ok true W32); exact HC.
        + intros Hn Hx. rewrite <- (mm_srav_ok 32 128 eq_refl a c HC). destruct (use_avx2 A); [reflexivity|]. apply (four_shifts_ok A HV (mm_sra 32 128) (fun k x => Z.shiftr (sgn 32 x) (if k <? 32 then k else 32 - 1))); auto.
      - rewrite HA. f_equal. apply mm_srav_ok; auto.
      - change (32 <=? 16) with false in HA. cbv iota in HA. rewrite HA. f_equal. apply mm_srav_ok; auto.
    Qed.
  End L.
  Lemma a16 : avail_int A 8 s = true -> avail_int A 16 s = true. Proof. destruct s; auto. Qed.
  Lemma bw_all : use_avx512bw A = true -> byte_shifts A = true /\ has_shift_r_v A true W16 = true /\ use_ssse3 A = true.
  Proof. intros H. assert (E : use_ssse3 A = true) by (destruct (use_ssse3 A) eqn:E; auto; vimp HV). unfold byte_shifts, has_shift_r_v. rewrite E, H. destruct (use_null A); auto. Qed.
  Lemma l8 a c : reg R a -> reg R c -> avail_int A 8 s = true -> byte_shifts A = true -> cok 8 R c -> i_shift_l_v8 A s a c = Ok (v2 8 R Z.shiftl a c).
  Proof.
    intros Ha Hc HA HB HC. pose proof (a16 HA) as H16. unfold i_shift_l_v8.
    assert (V : shl8_v16 A s a c = Ok (v2 8 R Z.shiftl a c)) by (apply shl8_v16_ok; auto; intros; apply l16; auto).
    assert (M : use_ssse3 A = true -> use_null A = false -> shl8_mul A s a c = Ok (v2 8 R Z.shiftl a c)) by (intros; apply shl8_mul_ok; auto). clear H16.
    destruct s; cbn [rbits avail_int] in *.
    - apply (sv_ladder_ok A HV R128); auto; try (first [apply neon_slv|apply vec_slv|apply msa_slv]; auto; lia).
      + intros _. apply (null_shl_v_ok W8); exact HC.
      + intros Hn Hx. rewrite (ss3_sse Hx HB Hn). destruct (use_avx512bw A && use_avx512vl A); auto using ss3_sse.
    - rewrite HA. destruct (avx2_ss3 HA) as [E1 E2]. destruct (use_avx512bw A && use_avx512vl A); auto.
    - change (8 <=? 16) with true in HA. cbv iota in HA. rewrite HA. exact V.
  Qed.
  Lemma ru8 a c : reg R a -> reg R c -> avail_int A 8 s = true -> byte_shifts A = true -> cok 8 R c -> i_shift_r_v_u8 A s a c = Ok (v2 8 R (fr false 8) a c).
  Proof.
    intros Ha Hc HA HB HC. pose proof (a16 HA) as H16. unfold i_shift_r_v_u8.
    assert (V : shr8_v16_u A s a c = Ok (v2 8 R (fr false 8) a c)) by (apply shr8_v16_u_ok; auto; intros; apply ru16; auto).
    assert (M : use_ssse3 A = true -> shr8_mul_u A s a c = Ok (v2 8 R (fr false 8) a c)) by (intros; apply shr8_mul_u_ok; auto). clear H16.
    destruct s; cbn [rbits avail_int] in *.
    - apply (sv_ladder_ok A HV R128); auto; try (first [apply (neon_srv 8 eq_refl a c HC ltac:(lia) false)|apply vec_srv|apply msa_srv]; auto; lia).
      + intros _. apply (null_shr_v_ok false W8); exact HC.
      + intros Hn Hx. rewrite (ss3_sse Hx HB Hn). destruct (use_avx512bw A && use_avx512vl A); auto using ss3_sse.
    - rewrite HA. destruct (avx2_ss3 HA) as [E1 E2]. destruct (use_avx512bw A && use_avx512vl A); auto.
    - change (8 <=? 16) with true in HA. cbv iota in HA. rewrite HA. exact V.
  Qed.
  Lemma ri8 a c : reg R a -> reg R c -> avail_int A 8 s = true -> byte_shifts A = true -> cok 8 R c -> i_shift_r_v_i8 A s a c = Ok (v2 8 R (fr true 8) a c).
  Proof.
    intros Ha Hc HA HB HC. pose proof (a16 HA) as H16. unfold i_shift_r_v_i8.
    assert (V : use_avx512bw A = true -> shr8_v16_s A s a c = Ok (v2 8 R (fr true 8) a c)) by (intros HW; apply shr8_v16_s_ok; auto; intros; apply ri16; auto; apply (bw_all HW)).
    assert (M : use_ssse3 A = true -> shr8_mul_s A s a c = Ok (v2 8 R (fr true 8) a c)) by (intros; apply shr8_mul_s_ok; auto). clear H16.
    destruct s; cbn [rbits avail_int] in *.
    - apply (sv_ladder_ok A HV R128); auto; try (first [apply (neon_srv 8 eq_refl a c HC ltac:(lia) true)|apply vec_srav|apply msa_srav]; auto; lia).
      + intros _. apply (null_shr_v_ok true W8); exact HC.
      + intros Hn Hx. rewrite (ss3_sse Hx HB Hn). destruct (use_avx512bw A) eqn:EB; cbn [andb]; [destruct (use_avx512vl A)|]; auto using ss3_sse.
    - rewrite HA. destruct (avx2_ss3 HA) as [E1 E2]. destruct (use_avx512bw A) eqn:EB; cbn [andb]; [destruct (use_avx512vl A)|]; auto.
    - change (8 <=? 16) with true in HA. cbv iota in HA. rewrite HA. auto.
  Qed.
  Lemma i_shift_l_v_ok w a c : reg R a -> reg R c -> avail_int A (wb w) s = true -> has_shift_l_v A w = true -> cok (wb w) R c -> i_shift_l_v A s w a c = Ok (v2 (wb w) R Z.shiftl a c).
  Proof. intros Ha Hc HA HB HC. destruct w; cbn [wb i_shift_l_v has_shift_l_v] in *; [apply l8|apply l16|apply l32|discriminate HB]; auto. Qed.
  Lemma i_shift_r_v_ok sg w a c : reg R a -> reg R c -> avail_int A (wb w) s = true -> has_shift_r_v A sg w = true -> cok (wb w) R c -> i_shift_r_v A s sg w a c = Ok (v2 (wb w) R (fr sg (wb w)) a c).
  Proof. intros Ha Hc HA HB HC. destruct w; [| | |discriminate HB]; destruct sg; cbn [wb i_shift_r_v] in *; [apply ri8|apply ru8|apply ri16|apply ru16|apply ri32|apply ru32]; auto. Qed.
End P.
