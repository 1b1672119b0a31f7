From Verif Require Import Proof.SelTac Proof.MoveP Proof.PermuteP Proof.ShiftP.
From Verif Require Export Proof.ConvertP2.

Ltac perk HV := intros _; unfold per, vlen, vreg, fast_int, f_not_bw; destruct (rconf_ok _ HV); rw_flags; reflexivity.
Theorem ext_8_16_ok A sg T : valid_arch A = true -> vsize T -> converts A 8 16 T (ext_8_16 A sg T) (s_extend sg 8 16).
Proof.
  intros HV HT. apply conv_typed; auto; [unfold wpair; auto|intros; apply i_ext_8_16_ok; auto|perk HV].
Qed.
Theorem ext_16_32_ok A sg T : valid_arch A = true -> vsize T -> converts A 16 32 T (ext_16_32 A sg T) (s_extend sg 16 32).
Proof.
  intros HV HT. apply conv_typed; auto; [unfold wpair; auto|intros; apply i_ext_16_32_ok; auto|perk HV].
Qed.
Theorem ext_32_64_ok A sg T : valid_arch A = true -> vsize T -> converts A 32 64 T (ext_32_64 A sg T) (s_extend sg 32 64).
Proof.
  intros HV HT. apply conv_typed; auto; [unfold wpair; auto|intros; apply i_ext_32_64_ok; auto|perk HV].
Qed.

Lemma vsize128 : vsize 128. Proof. exists 0%nat. reflexivity. Qed.
Lemma vsize256 : vsize 256. Proof. exists 1%nat. reflexivity. Qed.
Lemma vsize512 : vsize 512. Proof. exists 2%nat. reflexivity. Qed.
Lemma extend_extend sg w w1 w2 x : 0 < w <= w1 -> w1 <= w2 -> 0 <= x < 2 ^ w ->
  s_extend sg w1 w2 (s_extend sg w w1 x) = s_extend sg w w2 x.
Proof.
  intros H1 H2 Hx. unfold s_extend. destruct sg; auto. f_equal. fold (wrap w1 (sgn w x)). rewrite sgn_wrap. apply sgn_id; [lia|].
  pose proof (sgn_range w x ltac:(lia)). pose proof (Z.pow_le_mono_r 2 (w - 1) (w1 - 1) ltac:(lia) ltac:(lia)). lia.
Qed.
(** two conversions in a row, of one 128-bit register *)
Lemma cv_comp A sg w w1 w2 f g a : use_avx2 A = false -> use_avx512f A = false -> use_avx512bw A = false ->
  0 < w <= w1 -> w1 <= w2 -> 128 * w1 / w * w2 / w1 = 128 * w2 / w -> reg 128 a ->
  converts A w w1 128 f (s_extend sg w w1) -> converts A w1 w2 (128 * w1 / w) g (s_extend sg w1 w2) ->
  cv w w2 R128 (vreg A w2 (rbits R128 * w2 / w)) (s_extend sg w w2) (per A w w2 R128) a (let* v := f [a] in g v).
Proof.
  intros E2 Ef Eb H1 H2 HE Ha Hf Hg.
  assert (vreg A w 128 = R128) as Ev by reflexivity.
  destruct (Hf [a]) as (v & Ev1 & Tv & Lv).
  { split; [rewrite Ev; apply wfv_cons; split; [exact Ha|constructor]|reflexivity]. }
  rewrite Ev1. cbn [bind]. destruct (Hg v Tv) as (r & Er & Tr & Lr). rewrite HE in *.
  exists r. split; auto. cbn [rbits]. split; [apply Tr|]. split; [apply (typed_len _ _ _ _ Tr)|].
  unfold tlanes in *. rewrite Lr, Lv. rewrite map_map. cbn [lanes flat_map]. rewrite Ev. unfold lanes. cbn [flat_map]. rewrite app_nil_r.
  apply map_ext_in. intros x Hx. apply extend_extend; auto.
  unfold elems in Hx. apply in_map_iff in Hx as (i & <- & _). apply lane_range. lia.
Qed.
Ltac cvgo2 HV f :=
  unfold f, i_split1; destruct (rconf_ok _ HV); rw_flags; try solve [vimp HV];
  fam HV; repeat split_if; try solve [vimp HV];
  lazymatch goal with
  | |- cv _ _ _ _ _ _ _ (let* v := ext_8_16 _ _ _ _ in _) => apply (cv_comp _ _ 8 16 32); first [assumption|lia|reflexivity|apply ext_8_16_ok; [assumption|apply vsize128]|apply ext_16_32_ok; [assumption|apply vsize256]]
  | |- cv _ _ _ _ _ _ _ (let* v := ext_16_32 _ _ _ _ in _) => apply (cv_comp _ _ 16 32 64); first [assumption|lia|reflexivity|apply ext_16_32_ok; [assumption|apply vsize128]|apply ext_32_64_ok; [assumption|apply vsize256]]
  | |- _ => unfold per, vlen, vreg, fast_int; rw_flags; cvnorm; cleaf HV
  end.
Lemma i_ext_8_32_ok A sg s a : valid_arch A = true -> avail_int A 8 s = true -> reg (rbits s) a ->
  cv 8 32 s (vreg A 32 (rbits s * 32 / 8)) (s_extend sg 8 32) (per A 8 32 s) a (i_ext_8_32 A sg s a).
Proof.
  intros HV HA Ha. destruct s; cbn [rbits avail_int Z.leb Z.compare Pos.compare Pos.compare_cont] in Ha, HA; [clear HA|..]; cvgo2 HV i_ext_8_32.
Qed.
Theorem ext_8_32_ok A sg T : valid_arch A = true -> vsize T -> converts A 8 32 T (ext_8_32 A sg T) (s_extend sg 8 32).
Proof.
  intros HV HT. apply conv_typed; auto; [unfold wpair; auto|intros; apply i_ext_8_32_ok; auto|perk HV].
Qed.
Lemma i_ext_16_64_ok A sg s a : valid_arch A = true -> avail_int A 16 s = true -> reg (rbits s) a ->
  cv 16 64 s (vreg A 64 (rbits s * 64 / 16)) (s_extend sg 16 64) (per A 16 64 s) a (i_ext_16_64 A sg s a).
Proof.
  unfold i_ext_16_64_4.
  intros HV HA Ha. destruct s; cbn [rbits avail_int Z.leb Z.compare Pos.compare Pos.compare_cont] in Ha, HA; [clear HA|..]; cvgo2 HV i_ext_16_64.
Qed.

Ltac cvgo3 HV f :=
  unfold f, i_ext_8_64_8, i_split1; destruct (rconf_ok _ HV); rw_flags; try solve [vimp HV];
  fam HV; repeat split_if; try solve [vimp HV];
  lazymatch goal with
  | |- cv _ _ _ _ _ _ _ (let* v := ext_8_32 _ _ _ _ in _) => apply (cv_comp _ _ 8 32 64); first [assumption|lia|reflexivity|apply ext_8_32_ok; [assumption|apply vsize128]|apply ext_32_64_ok; [assumption|apply vsize512]]
  | |- _ => unfold per, vlen, vreg, fast_int; rw_flags; cvnorm; cleaf HV
  end.
Lemma i_ext_8_64_ok A sg s a : valid_arch A = true -> avail_int A 8 s = true -> reg (rbits s) a ->
  cv 8 64 s (vreg A 64 (rbits s * 64 / 8)) (s_extend sg 8 64) (per A 8 64 s) a (i_ext_8_64 A sg s a).
Proof.
  intros HV HA Ha. destruct s; cbn [rbits avail_int Z.leb Z.compare Pos.compare Pos.compare_cont] in Ha, HA; [clear HA|..]; cvgo3 HV i_ext_8_64.
Qed.
(** the overloads for two 256-bit registers are the concatenation of the results of each *)
Lemma two_regs w w' sg va a b ra rb : va = [a; b] -> 
  cv w w' R256 R512 (s_extend sg w w') (length ra) a (Ok ra) -> cv w w' R256 R512 (s_extend sg w w') (length rb) b (Ok rb) ->
  wfv R512 (ra ++ rb) /\ lanes w' R512 (ra ++ rb) = map (s_extend sg w w') (lanes w R256 va).
Proof.
  intros -> (x & Ex & Wx & _ & Lx) (y & Ey & Wy & _ & Ly). injection Ex as <-. injection Ey as <-.
  split; [apply wfv_app; auto|]. rewrite lanes_app, Lx, Ly. unfold lanes. cbn [flat_map]. rewrite app_nil_r, map_app. reflexivity.
Qed.
