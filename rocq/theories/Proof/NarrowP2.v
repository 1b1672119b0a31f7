(** Narrowing conversions: the ladders. *)
From Verif Require Export Proof.NarrowP.

Ltac regs HW := repeat match type of HW with
  | wfv _ (_ :: _) => apply wfv_cons in HW; let H := fresh "R" in destruct HW as [H HW]; cbn [rbits] in H end.
Ltac explode va HL HW :=
  repeat (let x := fresh "a" in destruct va as [|x va]; [try (exfalso; cbn [length] in HL; lia)|try (exfalso; cbn [length] in HL; lia)]);
  regs HW; clear HL.
Ltac rwc := lazymatch goal with Eb : use_avx512bw ?A = _, Ef : use_avx512f ?A = _, E2 : use_avx2 ?A = _ |- _ => rewrite ?Eb, ?Ef, ?E2 in * end.
(** the layout of the source *)
Ltac nprep s HV HA :=
  let HW := fresh in let HL := fresh in intros HV HA [HW HL];
  let va := lazymatch type of HW with wfv _ ?va => va end in
  let sv := fresh "sv" in let Esv := fresh in
  match goal with |- exists r, _ /\ narrowed _ _ (rbits ?X) _ _ _ => remember X as sv eqn:Esv end;
  pose proof HA as HA'; unfold avail_int in HA';
  unfold vreg, fast_int in Esv; rconf HV; destruct s; rwc; cbn in Esv, HA'; try discriminate HA'; clear HA';
  subst sv; cbn [rbits] in *;
  lazymatch type of HL with _ = ?x => let y := eval vm_compute in x in change x with y in HL end; explode va HL HW.
Lemma av128 A e : avail_et A e R128 = true.
Proof. destruct e; reflexivity. Qed.
Lemma has_pb_avx2 A : valid_arch A = true -> use_avx2 A = true -> has_permute_bytes A = true.
Proof. intros HV H. destruct (use_ssse3 A) eqn:E; [apply has_pb_ssse3; assumption|vimp HV]. Qed.
Lemma x128r i a : reg 128 (mm_extract128 i a). Proof. unfold reg, mm_extract128. apply lane_range. lia. Qed.
Lemma x256r i a : reg 256 (mm_extract256 i a). Proof. unfold reg, mm_extract256. apply lane_range. lia. Qed.
Ltac nside := lazymatch goal with
  | |- valid_arch _ = true => assumption
  | |- avail_et _ _ R128 = true => apply av128
  | |- avail_et _ _ R256 = true => cbn; assumption
  | |- avail_int _ _ R128 = true => reflexivity
  | |- avail_int _ _ R256 = true => assumption
  | |- has_permute_bytes _ = true => first [apply has_pb_avx2; assumption | apply has_pb_ssse3; assumption | apply has_pb_sse2; assumption]
  | |- mask_ok _ _ = true => vm_compute; reflexivity
  | |- _ \/ _ => solve [auto]
  | |- reg _ (lsh _ _ _ _ _) => apply lsh_reg; reflexivity
  | |- reg _ (mm_permute4x64 _ _ _) => apply lsh_reg; reflexivity
  | |- reg _ (mm_extract128 _ _) => apply x128r
  | |- reg _ (mm_extract256 _ _) => apply x256r
  | |- reg _ _ => assumption
  | |- _ <= _ < _ => lia
  | |- _ <> _ => discriminate
  | |- _ = _ => first [reflexivity | assumption]
  end.
Ltac nrw e := lazymatch e with
  | bind ?e' _ => nrw e'
  | permute_mask _ _ _ _ _ => rewrite permute_mask_ok by nside
  | i_zip _ _ _ _ _ _ => rewrite i_zip_ok by nside
  | i_permute4 _ _ _ _ _ _ _ _ => rewrite i_permute4_ok by nside
  | i_permute4_64 _ _ _ _ _ _ _ => rewrite i_permute4_64_ok by nside
  | i_shuffle4x2_u64 _ _ _ _ _ _ _ _ => rewrite i_shuffle4x2_u64_ok by nside
  | i_unzip_lo _ _ _ _ _ => rewrite i_unzip_lo_ok by nside
  end; cbn [bind rbits eb].
Ltac nsteps := repeat lazymatch goal with
  | |- exists r, bind ?e _ = _ /\ _ => nrw e
  | |- exists r, Ok _ = Ok r /\ _ => eexists; split; [reflexivity|]
  | |- exists r, ?e = Ok r /\ _ => nrw e
  end.
Ltac half l := lazymatch l with
  | [?a; ?b] => constr:(([a], [b]))
  | [?a; ?b; ?c; ?d] => constr:(([a; b], [c; d]))
  | [?a; ?b; ?c; ?d; ?e; ?f; ?g; ?h] => constr:(([a; b; c; d], [e; f; g; h])) end.
Ltac ncat := lazymatch goal with
  | |- narrowed _ _ _ _ [_] (mm_trunc _ _ _ _ _) => apply narrowed_trunc; reflexivity
  | |- narrowed _ _ _ _ _ (npair8 _ _) => apply narrowed_pair8
  | |- narrowed ?w ?w' ?R ?R' ?l (?c _ _) =>
      let p := half l in let l1 := eval cbv in (fst p) in let l2 := eval cbv in (snd p) in
      let h := eval vm_compute in (R' / 2) in
      apply (narrowed_cat w w' R h l1 l2); [reflexivity..|ncat|ncat]
  end.
Ltac nend := lazymatch goal with
  | |- exists r, null_narrow _ _ _ = Ok r /\ _ => apply narrowed_null; unfold npair, wpair; lia
  | |- _ =>
    nsteps; lazymatch goal with
    | |- narrowed _ _ _ _ [_] (mm_trunc _ _ _ _ _) => apply narrowed_trunc; reflexivity
    | |- narrowed _ ?w _ _ _ (vcombine (vmovn _ _) (vmovn _ _)) => apply (narrowed_vmovn w); reflexivity
    | |- narrowed _ ?w _ _ _ (vec_pack _ _ _) => apply (narrowed_vec_pack w); reflexivity
    | |- narrowed _ _ _ _ _ (mm_combine256 (lsh _ _ _ _ _) _) => nleaf
    | |- narrowed _ _ _ _ _ (mm_combine256 _ _) => ncat
    | |- narrowed _ _ _ _ _ (mm_combine128 (mm_trunc _ _ _ _ _) _) => ncat
    | |- narrowed _ _ _ _ _ (mm_combine128 (npair8 _ _) _) => ncat
    | |- narrowed _ _ _ _ _ (npair8 _ _) => apply narrowed_pair8
    | |- _ => nleaf end
  end.
Ltac nlad HV := fam HV; try fcontra; repeat split_if; cbn [one two four eight]; cbv beta zeta; 
  try (lazymatch goal with
  | |- exists r, UB = Ok r /\ _ => vimp HV
  | |- exists r, NotImpl = Ok r /\ _ => vimp HV
  | |- _ => first [nend | vimp HV]
  end).
Definition nar_ok A w w' s va (f : res Z) : Prop :=
  valid_arch A = true -> avail_int A w' s = true -> typed A w (rbits s * w / w') va ->
  exists r, f = Ok r /\ narrowed w w' (rbits (vreg A w (rbits s * w / w'))) (rbits s) va r.
Lemma nar_64_32_ok A s va : nar_ok A 64 32 s va (nar_64_32 A s va).
Proof. unfold nar_ok. nprep s HV HA; unfold nar_64_32; rwc; nlad HV. Qed.
Lemma nar_32_16_ok A s va : nar_ok A 32 16 s va (nar_32_16 A s va).
Proof. unfold nar_ok. nprep s HV HA; unfold nar_32_16, masked; rwc; nlad HV. Qed.
Lemma nar_16_8_ok A s va : nar_ok A 16 8 s va (nar_16_8 A s va).
Proof. unfold nar_ok. nprep s HV HA; unfold nar_16_8, masked; rwc; nlad HV. Qed.
(** two steps *)
Lemma typed128 A w T v : use_avx2 A = false -> valid_arch A = true -> Forall (reg 128) v -> Z.of_nat (length v) * 128 = T -> typed A w T v.
Proof.
  intros H2 HV HF HL. assert (vreg A w T = R128) as E.
  { unfold vreg, fast_int. destruct (T <=? 128); [reflexivity|]. rconf HV; try fcontra. rewrite E2, Ef, Eb. destruct (w <=? 16); reflexivity. }
  unfold typed. rewrite E. split; assumption.
Qed.
Lemma f2_impl {X Y} (P Q : X -> Y -> Prop) l m : (forall x y, P x y -> Q x y) -> Forall2 P l m -> Forall2 Q l m.
Proof. intros HI H. induction H; constructor; auto. Qed.
Lemma f2_len {X Y} (P : X -> Y -> Prop) l m : Forall2 P l m -> length l = length m.
Proof. intros H. induction H; cbn; auto. Qed.
Lemma two_step A w w1 w2 s vs va (f g : vec -> res Z) (h : vec -> res Z) : use_avx2 A = false -> valid_arch A = true ->
  npair w w1 -> npair w1 w2 -> s = R128 ->
  (forall va, nar_ok A w w1 R128 va (f va)) -> (forall va, nar_ok A w1 w2 R128 va (g va)) ->
  va = concat vs -> Forall (Forall (reg 128)) vs -> Forall (fun v => length v = Z.to_nat (w / w1)) vs -> length vs = Z.to_nat (w1 / w2) ->
  (forall xs, Forall2 (fun v x => f v = Ok x) vs xs -> h va = g xs) ->
  exists r, h va = Ok r /\ narrowed w w2 128 128 va r.
Proof.
  intros H2 HV P1 P2 -> Hf Hg -> HR HL HN Hh.
  assert (forall w, vreg A w 128 = R128) as V1 by reflexivity.
  assert (forall w T, vreg A w T = R128) as VR.
  { intros w0 T. unfold vreg, fast_int. destruct (T <=? 128); [reflexivity|]. rconf HV; try fcontra. rewrite E2, Ef, Eb. destruct (w0 <=? 16); reflexivity. }
  assert (0 < w / w1 /\ 0 < w1 / w2 /\ 0 < w2 /\ w2 <= w1 /\ w1 <= w /\ 128 * w / w1 = 128 * (w / w1) /\ 128 * w1 / w2 = 128 * (w1 / w2) /\
          0 < 128 / w /\ 128 / w1 = (w / w1) * (128 / w) /\ 128 / w2 = (w1 / w2) * (128 / w1)) as (D1 & D2 & D3 & D4 & D5 & D6 & D7 & D8 & D9 & D10).
  { destruct P1 as [[-> [-> | [-> | ->]]] | [[-> [-> | ->]] | [-> ->]]]; destruct P2 as [[? [? | [? | ?]]] | [[? [? | ?]] | [? ?]]]; try discriminate; subst;
    repeat split; vm_compute; reflexivity || discriminate. }
  assert (exists xs, Forall2 (fun v x => f v = Ok x /\ narrowed w w1 128 128 v x) vs xs) as [xs HX].
  { clear Hh HN Hg. induction HL as [|v vs Hv HL IH]; [exists []; constructor|].
    inversion HR; subst. destruct IH as [xs IH]; [assumption|].
    destruct (Hf v HV eq_refl) as (x & Ex & Nx).
    { apply typed128; auto. rewrite Hv. cbn [rbits]. lia. }
    rewrite VR in Nx. exists (x :: xs). constructor; auto. }
  rewrite (Hh xs) by (eapply f2_impl; [|exact HX]; cbn; tauto).
  assert (Forall2 (narrowed w w1 128 128) vs xs) as HX2 by (eapply f2_impl; [|exact HX]; cbn; tauto).
  destruct (Hg xs HV eq_refl) as (r & Er & Nr).
  { apply typed128; auto.
    - clear -HX2. induction HX2 as [|? ? ? ? [? _]]; constructor; auto.
    - pose proof (f2_len _ _ _ HX2) as HE. transitivity (Z.of_nat (Z.to_nat (w1 / w2)) * 128); [f_equal; f_equal; etransitivity; [symmetry; exact HE|exact HN]|cbn [rbits]; lia]. }
  rewrite VR in Nr. exists r. split; [assumption|].
  eapply (narrowed_comp w w1 w2 128 128 128 (Z.to_nat (w / w1))); eauto; try lia.
  transitivity (Z.of_nat (Z.to_nat (w1 / w2)) * (128 / w1)); [lia|f_equal; f_equal; symmetry; exact HN].
Qed.
Ltac reg_list := repeat match goal with |- Forall _ [] => constructor | |- Forall _ (_ :: _) => constructor end; try assumption; try reflexivity.
Ltac inv2 := repeat match goal with H : Forall2 _ (_ :: _) _ |- _ => inversion H; subst; clear H | H : Forall2 _ [] _ |- _ => inversion H; subst; clear H end.

Ltac step2 A w w1 w2 vs f g Hf Hg :=
  lazymatch goal with |- exists r, ?e = Ok r /\ narrowed _ _ _ _ ?va r =>
  apply (two_step A w w1 w2 R128 vs va f g (fun _ => e));
  [assumption|assumption|unfold npair, wpair; lia|unfold npair, wpair; lia|reflexivity|intros; apply Hf|intros; apply Hg
  |reflexivity|reg_list|reg_list|reflexivity|
   intros; inv2; repeat match goal with H : ?x = Ok _ |- context [?x] => rewrite H; cbn [bind] end; reflexivity] end.
Lemma nar_64_16_ok A s va : nar_ok A 64 16 s va (nar_64_16 A s va).
Proof.
  unfold nar_ok. nprep s HV HA; unfold nar_64_16, masked; rwc; nlad HV.
  all: step2 A 64 32 16 [[a; a0]; [a1; a2]] (nar_64_32 A R128) (nar_32_16 A R128) nar_64_32_ok nar_32_16_ok.
Qed.
(** uint8<32> of uint32<32> is wrong on AVX2 *)
Lemma nar_32_8_ok A s va : (s = R256 -> use_avx512f A = true) -> nar_ok A 32 8 s va (nar_32_8 A s va).
Proof.
  unfold nar_ok. intros HX. nprep s HV HA; unfold nar_32_8, masked; rwc; try (specialize (HX eq_refl); fcontra); cbn [i_split1]; nlad HV.
  all: step2 A 32 16 8 [[a; a0]; [a1; a2]] (nar_32_16 A R128) (nar_16_8 A R128) nar_32_16_ok nar_16_8_ok.
Qed.
Lemma nar_32_8_ok128 A va : nar_ok A 32 8 R128 va (nar_32_8 A R128 va).
Proof. apply nar_32_8_ok. discriminate. Qed.
Ltac fpair := repeat match goal with |- context [mm_unpacklo 64 128 (mm_trunc 64 8 512 128 ?a) (mm_trunc 64 8 512 128 ?b)] =>
  change (mm_unpacklo 64 128 (mm_trunc 64 8 512 128 a) (mm_trunc 64 8 512 128 b)) with (npair8 a b) end.
Lemma nar_64_8_ok A s va : nar_ok A 64 8 s va (nar_64_8 A s va).
Proof.
  unfold nar_ok. nprep s HV HA; unfold nar_64_8, masked; rwc; cbn [two four eight]; cbv beta zeta; fpair; nlad HV.
  all: step2 A 64 32 8 [[a; a0]; [a1; a2]; [a3; a4]; [a5; a6]] (nar_64_32 A R128) (nar_32_8 A R128) nar_64_32_ok nar_32_8_ok128.
Qed.
