(** The sorting functions follow the networks of ZeroOne.v. *)
From Verif Require Import Spec.Sorted Model.Bitonic Proof.ZeroOne Spec.Shuffles Base.ShufLift.

(** lanes of 128-bit parts *)
Definition p_128 (s0 s1 k : Z) : src := if k <? 4 then fromA (4 * s0 + k) else fromB (4 * s1 + (k - 4)).
Definition two (z : Z) := z = 0 \/ z = 1.
Lemma lane128_32 i j x : 0 <= i -> 0 <= j < 4 -> lane 32 j (lane 128 i x) = lane 32 (4 * i + j) x.
Proof. intros. change 128 with (4 * 32). rewrite (lane_lane 32 4) by lia. f_equal. lia. Qed.

Section B.
  Variables (s : rsz) (D : Z -> Prop) (fmn fmx : Z -> Z -> Z).
  Hypothesis Hs : s = R128 \/ s = R256.
  Definition len : nat := match s with R256 => 1 | _ => 2 end.
  Definition okv (v : vec) (l : list Z) : Prop := wfv s v /\ length v = len /\ lanes 32 s v = l /\ Forall D l.
  Lemma okv_len v l : okv v l -> length l = 8%nat.
  Proof. intros (W & L & E & _). subst l. rewrite lanes_length, L. unfold len. destruct Hs as [-> | ->]; reflexivity. Qed.
  Variables (mn mx : vec -> vec -> res vec) (p4 : Z -> Z -> Z -> Z -> vec -> res vec) (s4x2 : Z -> Z -> Z -> Z -> vec -> vec -> res vec).
  Hypothesis Hmn : forall va vb la lb, okv va la -> okv vb lb -> exists vr, mn va vb = Ok vr /\ okv vr (zipw fmn la lb).
  Hypothesis Hmx : forall va vb la lb, okv va la -> okv vb lb -> exists vr, mx va vb = Ok vr /\ okv vr (zipw fmx la lb).
  Hypothesis Hp4 : forall s0 s1 s2 s3, 0 <= s0 < 4 -> 0 <= s1 < 4 -> 0 <= s2 < 4 -> 0 <= s3 < 4 ->
    computesS1 32 s 4 (p4 s0 s1 s2 s3) (p_permute4 s0 s1 s2 s3).
  Hypothesis Hs4 : forall s0 s1 s2 s3, 0 <= s0 < 8 -> 0 <= s1 < 8 -> 0 <= s2 < 8 -> 0 <= s3 < 8 ->
    computesS2 32 s 4 (s4x2 s0 s1 s2 s3) (p_shuffle4x2 s0 s1 s2 s3).
  Let s128 := shuffle1_128 s.

  Lemma grouped_D n L args : (n = 4 \/ n = 8) -> (forall k, 0 <= k < n -> exists m j, L k = Some (m, j) /\ (m < length args)%nat /\ 0 <= j < n) ->
    args <> [] -> Forall (fun l => length l = 8%nat /\ Forall D l) args -> Forall D (grouped n L args).
  Proof.
    intros Hn HL Hne HD. unfold grouped. apply Forall_map. rewrite Forall_forall. intros i Hi. apply zrange_in in Hi.
    unfold pick. assert (0 <= i mod n < n) as Hm by (apply Z.mod_pos_bound; lia).
    destruct (HL _ Hm) as (m & j & -> & Hl & Hj). rewrite Forall_forall in HD.
    assert (length (hd [] args) = 8%nat) as EH.
    { destruct args as [|x args]; [contradiction|]. apply HD. left. reflexivity. }
    rewrite EH in Hi. destruct (HD (nth m args []) (nth_In _ _ Hl)) as [HE HF]. rewrite Forall_forall in HF. apply HF, nth_In.
    assert (0 <= n * (i / n) + j < 8).
    { pose proof (Z.div_mod i n ltac:(lia)). assert (0 <= i / n) by (apply Z.div_pos; lia).
      assert (i / n < 8 / n) by (apply Z.div_lt_upper_bound; [lia|]; destruct Hn as [-> | ->]; cbn; lia).
      destruct Hn as [-> | ->]; [change (8 / 4) with 2 in *|change (8 / 8) with 1 in *]; lia. }
    lia.
  Qed.
  Lemma okv_p4 s0 s1 s2 s3 va la : 0 <= s0 < 4 -> 0 <= s1 < 4 -> 0 <= s2 < 4 -> 0 <= s3 < 4 -> okv va la ->
    exists vr, p4 s0 s1 s2 s3 va = Ok vr /\ okv vr (grouped 4 (p_permute4 s0 s1 s2 s3) [la]).
  Proof.
    intros H0 H1 H2 H3 Ho. pose proof (okv_len _ _ Ho) as HL. destruct Ho as (W & L & E & HD).
    destruct (Hp4 s0 s1 s2 s3 H0 H1 H2 H3 va W) as (vr & E1 & W1 & L1 & E2).
    exists vr. split; auto. split; auto. split; [lia|]. split; [rewrite E2, E; reflexivity|].
    apply grouped_D; auto; [|discriminate].
    intros k Hk. unfold p_permute4. eexists _, _. split; [reflexivity|]. cbn [length]. split; [lia|].
    repeat match goal with |- context [if ?c then _ else _] => destruct c end; lia.
  Qed.
  Lemma okv_s4 s0 s1 s2 s3 va vb la lb : 0 <= s0 < 8 -> 0 <= s1 < 8 -> 0 <= s2 < 8 -> 0 <= s3 < 8 -> okv va la -> okv vb lb ->
    exists vr, s4x2 s0 s1 s2 s3 va vb = Ok vr /\ okv vr (grouped 4 (p_shuffle4x2 s0 s1 s2 s3) [la; lb]).
  Proof.
    intros H0 H1 H2 H3 Ho Ho'. pose proof (okv_len _ _ Ho) as HL. pose proof (okv_len _ _ Ho') as HL'.
    destruct Ho as (W & L & E & HD). destruct Ho' as (W' & L' & E' & HD').
    destruct (Hs4 s0 s1 s2 s3 H0 H1 H2 H3 va vb W W' ltac:(lia)) as (vr & E1 & W1 & L1 & E2).
    exists vr. split; auto. split; auto. split; [lia|]. split; [rewrite E2, E, E'; reflexivity|].
    apply grouped_D; auto; [|discriminate].
    intros k Hk. unfold p_shuffle4x2, p_cat.
    repeat match goal with |- context [if ?c then _ else _] => destruct c eqn:? end; eexists _, _; (split; [reflexivity|]); cbn [length]; lia.
  Qed.
  Lemma elems4 r : elems 32 4 r = [lane 32 0 r; lane 32 1 r; lane 32 2 r; lane 32 3 r].
  Proof. reflexivity. Qed.
  Lemma okv_s128 s0 s1 va vb la lb : two s0 -> two s1 -> okv va la -> okv vb lb ->
    exists vr, s128 s0 s1 va vb = Ok vr /\ okv vr (grouped 8 (p_128 s0 s1) [la; lb]).
  Proof.
    intros H0 H1 Ho Ho'. pose proof (okv_len _ _ Ho) as HL. pose proof (okv_len _ _ Ho') as HL'.
    assert (Forall D (grouped 8 (p_128 s0 s1) [la; lb])) as HG.
    { apply grouped_D; auto; [|discriminate| repeat constructor; auto; try apply Ho; try apply Ho'].
      intros k Hk. unfold p_128, two in *. destruct (Z.ltb_spec k 4); eexists _, _; (split; [reflexivity|]); cbn [length]; lia. }
    destruct Ho as (W & L & E & HD). destruct Ho' as (W' & L' & E' & HD').
    unfold s128, shuffle1_128. unfold len, okv, len in *. destruct Hs as [-> | ->].
    - destruct va as [|a0 [|a1 [|]]]; try discriminate L. destruct vb as [|b0 [|b1 [|]]]; try discriminate L'.
      eexists. split; [reflexivity|]. subst la lb.
      apply wfv_cons in W as [R0 W]. apply wfv_cons in W as [R1 W]. apply wfv_cons in W' as [R0' W']. apply wfv_cons in W' as [R1' W'].
      split; [|split; [reflexivity|split; auto]].
      + destruct H0 as [-> | ->], H1 as [-> | ->]; cbn [nth Z.to_nat Pos.to_nat Pos.iter_op]; repeat constructor; auto; try apply R0; try apply R1; try apply R0'; try apply R1'.
      + destruct H0 as [-> | ->], H1 as [-> | ->]; reflexivity.
    - destruct va as [|a0 [|]]; try discriminate L. destruct vb as [|b0 [|]]; try discriminate L'.
      eexists. split; [reflexivity|]. subst la lb.
      split; [|split; [reflexivity|split; auto]].
      + constructor; [|constructor]. apply pack_reg. reflexivity.
      + cbn [lanes flat_map]. rewrite !app_nil_r. unfold mm256_permute2x128.
        set (g := fun i => _). change (nl 32 (rbits R256)) with 8%nat. change (rbits R256) with 256 in *.
        assert (forall k, 0 <= k < 8 -> lane 32 k (pack 128 256 g) = lane 32 (k mod 4) (wrap 128 (g (k / 4)))) as HP.
        { intros k Hk. rewrite (Z.div_mod k 4) at 1 by lia. rewrite <- lane128_32 by (try (apply Z.div_pos); try (apply Z.mod_pos_bound); lia).
          assert (0 <= k / 4 < 2) by (split; [apply Z.div_pos; lia|apply Z.div_lt_upper_bound; lia]).
          rewrite lane_pack by (try reflexivity; cbn; lia). reflexivity. }
        assert (forall x i k, 0 <= i -> 0 <= k < 4 -> lane 32 k (wrap 128 (lane 128 i x)) = lane 32 (4 * i + k) x) as HQ.
        { intros x i k Hi Hk. rewrite wrap_lane by lia. apply lane128_32; lia. }
        unfold elems. cbn [seq map]. rewrite !HP by lia.
        destruct H0 as [-> | ->], H1 as [-> | ->]; subst g; cbn [Z.of_nat Pos.of_succ_nat Pos.succ];
        repeat match goal with |- context [?a mod 4] => let v := eval vm_compute in (a mod 4) in change (a mod 4) with v end;
        repeat match goal with |- context [?a / 4] => let v := eval vm_compute in (a / 4) in change (a / 4) with v end;
        cbv beta; cbn [Z.eqb];
        repeat match goal with |- context [?a mod 4] => let v := eval vm_compute in (a mod 4) in change (a mod 4) with v end;
        repeat match goal with |- context [(?a + ?b) / 16] => let v := eval vm_compute in ((a + b) / 16) in change ((a + b) / 16) with v end;
        repeat match goal with |- context [?a mod 4] => let v := eval vm_compute in (a mod 4) in change (a mod 4) with v end;
        cbn [Z.eqb Pos.eqb]; rewrite !HQ by lia; reflexivity.
  Qed.
  Ltac lst l HL := do 8 (destruct l as [|? l]; [discriminate HL|]); destruct l; [|discriminate HL].
  Ltac step L := let v := fresh "v" in let E := fresh "E" in let O := fresh "O" in
    destruct L as (v & E & O); rewrite E; cbn [bind].
  Ltac last L := let v := fresh "v" in let E := fresh "E" in let O := fresh "O" in
    destruct L as (v & E & O); exists v; split; [exact E|].
  Definition imp (op : vec -> res vec) (net : list Z -> list Z) : Prop :=
    forall v l, okv v l -> exists vr, op v = Ok vr /\ okv vr (net l).
  Ltac cmp4 p q r t net L1 L2 :=
    intros v l Ho; pose proof (okv_len _ _ Ho) as HL;
    destruct (okv_p4 p q r t v l ltac:(lia) ltac:(lia) ltac:(lia) ltac:(lia) Ho) as (v1 & E1 & O1); rewrite E1; cbn [bind].
  Lemma b_2ad : imp (sort_4lane_2el_asc_2el_dec mn mx p4 s4x2) (n_2ad fmn fmx).
  Proof.
    intros v l Ho. pose proof (okv_len _ _ Ho) as HL. unfold sort_4lane_2el_asc_2el_dec.
    step (okv_p4 1 0 3 2 v l ltac:(lia) ltac:(lia) ltac:(lia) ltac:(lia) Ho).
    step (Hmn _ _ _ _ Ho O). step (Hmx _ _ _ _ Ho O).
    last (okv_s4 1 4 7 2 _ _ _ _ ltac:(lia) ltac:(lia) ltac:(lia) ltac:(lia) O0 O1).
    lst l HL. exact O2.
  Qed.
  Lemma b_2aa : imp (sort_4lane_2el_asc_2el_asc mn mx p4 s4x2) (n_2aa fmn fmx).
  Proof.
    intros v l Ho. pose proof (okv_len _ _ Ho) as HL. unfold sort_4lane_2el_asc_2el_asc.
    step (okv_p4 1 0 3 2 v l ltac:(lia) ltac:(lia) ltac:(lia) ltac:(lia) Ho).
    step (Hmn _ _ _ _ Ho O). step (Hmx _ _ _ _ Ho O).
    last (okv_s4 1 4 2 7 _ _ _ _ ltac:(lia) ltac:(lia) ltac:(lia) ltac:(lia) O0 O1).
    lst l HL. exact O2.
  Qed.
  Lemma b_2dd : imp (sort_4lane_2el_dec_2el_dec mn mx p4 s4x2) (n_2dd fmn fmx).
  Proof.
    intros v l Ho. pose proof (okv_len _ _ Ho) as HL. unfold sort_4lane_2el_dec_2el_dec.
    step (okv_p4 1 0 3 2 v l ltac:(lia) ltac:(lia) ltac:(lia) ltac:(lia) Ho).
    step (Hmx _ _ _ _ Ho O). step (Hmn _ _ _ _ Ho O).
    last (okv_s4 1 4 2 7 _ _ _ _ ltac:(lia) ltac:(lia) ltac:(lia) ltac:(lia) O0 O1).
    lst l HL. exact O2.
  Qed.
  Lemma b_4a : imp (sort_4lane_corresponding_2el_asc mn mx p4 s4x2) (n_4a fmn fmx).
  Proof.
    intros v l Ho. pose proof (okv_len _ _ Ho) as HL. unfold sort_4lane_corresponding_2el_asc.
    step (okv_p4 2 3 0 1 v l ltac:(lia) ltac:(lia) ltac:(lia) ltac:(lia) Ho).
    step (Hmn _ _ _ _ Ho O). step (Hmx _ _ _ _ Ho O).
    last (okv_s4 0 1 4 5 _ _ _ _ ltac:(lia) ltac:(lia) ltac:(lia) ltac:(lia) O0 O1).
    lst l HL. exact O2.
  Qed.
  Lemma b_4d : imp (sort_4lane_corresponding_2el_dec mn mx p4 s4x2) (n_4d fmn fmx).
  Proof.
    intros v l Ho. pose proof (okv_len _ _ Ho) as HL. unfold sort_4lane_corresponding_2el_dec.
    step (okv_p4 2 3 0 1 v l ltac:(lia) ltac:(lia) ltac:(lia) ltac:(lia) Ho).
    step (Hmx _ _ _ _ Ho O). step (Hmn _ _ _ _ Ho O).
    last (okv_s4 0 1 4 5 _ _ _ _ ltac:(lia) ltac:(lia) ltac:(lia) ltac:(lia) O0 O1).
    lst l HL. exact O2.
  Qed.
  Lemma t0 : two 0. Proof. left; auto. Qed.
  Lemma t1 : two 1. Proof. right; auto. Qed.
  Lemma b_8a : imp (sort_8lane_corresponding_4el_asc mn mx s128) (n_8a fmn fmx).
  Proof.
    intros v l Ho. pose proof (okv_len _ _ Ho) as HL. unfold sort_8lane_corresponding_4el_asc.
    step (okv_s128 0 0 v v l l t0 t0 Ho Ho). step (okv_s128 1 1 v v l l t1 t1 Ho Ho).
    step (Hmn _ _ _ _ O O0). step (Hmx _ _ _ _ O O0).
    last (okv_s128 0 0 _ _ _ _ t0 t0 O1 O2).
    lst l HL. exact O3.
  Qed.
  Lemma b_8d : imp (sort_8lane_corresponding_4el_dec mn mx s128) (n_8d fmn fmx).
  Proof.
    intros v l Ho. pose proof (okv_len _ _ Ho) as HL. unfold sort_8lane_corresponding_4el_dec.
    step (okv_s128 0 0 v v l l t0 t0 Ho Ho). step (okv_s128 1 1 v v l l t1 t1 Ho Ho).
    step (Hmx _ _ _ _ O O0). step (Hmn _ _ _ _ O O0).
    last (okv_s128 0 0 _ _ _ _ t0 t0 O1 O2).
    lst l HL. exact O3.
  Qed.
  Lemma b_rt : imp (reverse_8lane_top4 p4 s128) n_rt.
  Proof.
    intros v l Ho. pose proof (okv_len _ _ Ho) as HL. unfold reverse_8lane_top4.
    step (okv_p4 3 2 1 0 v l ltac:(lia) ltac:(lia) ltac:(lia) ltac:(lia) Ho).
    last (okv_s128 0 1 _ _ _ _ t0 t1 Ho O). lst l HL. exact O0.
  Qed.
  Lemma b_rb : imp (reverse_8lane_bottom4 p4 s128) n_rb.
  Proof.
    intros v l Ho. pose proof (okv_len _ _ Ho) as HL. unfold reverse_8lane_bottom4.
    step (okv_p4 3 2 1 0 v l ltac:(lia) ltac:(lia) ltac:(lia) ltac:(lia) Ho).
    last (okv_s128 0 1 _ _ _ _ t0 t1 O Ho). lst l HL. exact O0.
  Qed.
  Lemma b_first_ad : imp (sort_8lane_4el_asc_4el_dec mn mx p4 s4x2 s128) (fun l => n_rt (n_first fmn fmx l)).
  Proof.
    intros v l Ho. unfold sort_8lane_4el_asc_4el_dec.
    step (b_2ad _ _ Ho). step (b_4a _ _ O). step (b_2aa _ _ O0). last (b_rt _ _ O1). exact O2.
  Qed.
  Lemma b_first_da : imp (sort_8lane_4el_dec_4el_asc mn mx p4 s4x2 s128) (fun l => n_rb (n_first fmn fmx l)).
  Proof.
    intros v l Ho. unfold sort_8lane_4el_dec_4el_asc.
    step (b_2ad _ _ Ho). step (b_4a _ _ O). step (b_2aa _ _ O0). last (b_rb _ _ O1). exact O2.
  Qed.
  Lemma b_fin_a : imp (finalize_asc mn mx p4 s4x2 s128) (n_fin_a fmn fmx).
  Proof.
    intros v l Ho. unfold finalize_asc. step (b_8a _ _ Ho). step (b_4a _ _ O). last (b_2aa _ _ O0). exact O1.
  Qed.
  Lemma b_fin_d : imp (finalize_dec mn mx p4 s4x2 s128) (n_fin_d fmn fmx).
  Proof.
    intros v l Ho. unfold finalize_dec. step (b_8d _ _ Ho). step (b_4d _ _ O). last (b_2dd _ _ O0). exact O1.
  Qed.

  (** the order *)
  Variable K : Z -> Z.
  Hypothesis Kn : forall x y, D x -> D y -> D (fmn x y) /\ K (fmn x y) = Z.min (K x) (K y).
  Hypothesis Kx : forall x y, D x -> D y -> D (fmx x y) /\ K (fmx x y) = Z.max (K x) (K y).
  Let f t x := thr t (K x).
  Lemma Fn t x y : D x -> D y -> D (fmn x y) /\ f t (fmn x y) = Z.min (f t x) (f t y).
  Proof.
    intros Hx Hy. destruct (Kn x y Hx Hy) as [HD E]. split; auto. unfold f, thr. rewrite E.
    destruct (Z.leb_spec t (K x)), (Z.leb_spec t (K y)), (Z.leb_spec t (Z.min (K x) (K y))); lia.
  Qed.
  Lemma Fx t x y : D x -> D y -> D (fmx x y) /\ f t (fmx x y) = Z.max (f t x) (f t y).
  Proof.
    intros Hx Hy. destruct (Kx x y Hx Hy) as [HD E]. split; auto. unfold f, thr. rewrite E.
    destruct (Z.leb_spec t (K x)), (Z.leb_spec t (K y)), (Z.leb_spec t (Z.max (K x) (K y))); lia.
  Qed.
  Lemma f01 t l : Forall (fun x => x = 0 \/ x = 1) (map (f t) l).
  Proof. apply Forall_map. rewrite Forall_forall. intros x _. unfold f, thr. destruct (t <=? K x); auto. Qed.
  Lemma eqv0 t v l : okv v l -> eqv D (f t) l (map (f t) l).
  Proof. intros Ho. pose proof (okv_len _ _ Ho). destruct Ho as (_ & _ & _ & HD). repeat split; auto. Qed.
  Lemma mapf t l : map (thr t) (map K l) = map (f t) l. Proof. rewrite map_map. reflexivity. Qed.
  Ltac nets t Ho chk := 
    let HL := fresh in pose proof (okv_len _ _ Ho) as HL.
  Lemma e_1a t v l : okv v l -> eqv D (f t) (n_fin_a fmn fmx (n_rt (n_first fmn fmx l))) (sort01 (map (f t) l)).
  Proof.
    intros Ho. rewrite <- (check_ok net1a sort01 _ net1a_ok) by (try apply f01; rewrite map_length; apply (okv_len _ _ Ho)).
    unfold net1a. apply (m_fin_a fmn fmx D (f t) (Fn t) (Fx t)). apply m_rt. apply (m_first fmn fmx D (f t) (Fn t) (Fx t)). apply (eqv0 t v l Ho).
  Qed.
  Lemma e_1d t v l : okv v l -> eqv D (f t) (n_fin_d fmn fmx (n_rb (n_first fmn fmx l))) (rev (sort01 (map (f t) l))).
  Proof.
    intros Ho. rewrite <- (check_ok net1d (fun l => rev (sort01 l)) _ net1d_ok) by (try apply f01; rewrite map_length; apply (okv_len _ _ Ho)).
    unfold net1d. apply (m_fin_d fmn fmx D (f t) (Fn t) (Fx t)). apply m_rb. apply (m_first fmn fmx D (f t) (Fn t) (Fx t)). apply (eqv0 t v l Ho).
  Qed.
  Lemma e_1ad t v l : okv v l -> eqv D (f t) (n_fin_d fmn fmx (n_rt (n_first fmn fmx l))) (rev (sort01 (map (f t) l))).
  Proof.
    intros Ho. rewrite <- (check_ok net1ad (fun l => rev (sort01 l)) _ net1ad_ok) by (try apply f01; rewrite map_length; apply (okv_len _ _ Ho)).
    unfold net1ad. apply (m_fin_d fmn fmx D (f t) (Fn t) (Fx t)). apply m_rt. apply (m_first fmn fmx D (f t) (Fn t) (Fx t)). apply (eqv0 t v l Ho).
  Qed.
  Lemma e_1da t v l : okv v l -> eqv D (f t) (n_fin_a fmn fmx (n_rb (n_first fmn fmx l))) (sort01 (map (f t) l)).
  Proof.
    intros Ho. rewrite <- (check_ok net1da sort01 _ net1da_ok) by (try apply f01; rewrite map_length; apply (okv_len _ _ Ho)).
    unfold net1da. apply (m_fin_a fmn fmx D (f t) (Fn t) (Fx t)). apply m_rb. apply (m_first fmn fmx D (f t) (Fn t) (Fx t)). apply (eqv0 t v l Ho).
  Qed.
  Theorem bsort_asc_ok v l : okv v l -> exists vr lr, bsort_asc mn mx p4 s4x2 s128 v = Ok vr /\ okv vr lr /\
    Permutation (map K l) (map K lr) /\ StronglySorted Z.le (map K lr).
  Proof.
    intros Ho. unfold bsort_asc. step (b_first_ad _ _ Ho). destruct (b_fin_a _ _ O) as (vr & E2 & O2).
    exists vr. eexists. split; [exact E2|]. split; [exact O2|]. apply zero_one_asc. intros t. rewrite !mapf. apply (e_1a t v l Ho).
  Qed.
  Theorem bsort_dec_ok v l : okv v l -> exists vr lr, bsort_dec mn mx p4 s4x2 s128 v = Ok vr /\ okv vr lr /\
    Permutation (map K l) (map K lr) /\ StronglySorted Z.ge (map K lr).
  Proof.
    intros Ho. unfold bsort_dec. step (b_first_da _ _ Ho). destruct (b_fin_d _ _ O) as (vr & E2 & O2).
    exists vr. eexists. split; [exact E2|]. split; [exact O2|]. apply zero_one_dec. intros t. rewrite !mapf. apply (e_1d t v l Ho).
  Qed.
  Theorem bsort2_asc_ok v0 v1 l0 l1 : okv v0 l0 -> okv v1 l1 -> exists r0 r1 m0 m1, bsort2_asc mn mx p4 s4x2 s128 v0 v1 = Ok (r0, r1) /\
    okv r0 m0 /\ okv r1 m1 /\ Permutation (map K (l0 ++ l1)) (map K (m0 ++ m1)) /\ StronglySorted Z.le (map K (m0 ++ m1)).
  Proof.
    intros Ho Ho'. unfold bsort2_asc. step (b_first_ad _ _ Ho). step (b_fin_a _ _ O). step (b_first_ad _ _ Ho'). step (b_fin_d _ _ O1).
    step (Hmx _ _ _ _ O0 O2). step (Hmn _ _ _ _ O0 O2). step (b_fin_a _ _ O4). step (b_fin_a _ _ O3).
    eexists _, _, _, _. split; [reflexivity|]. split; [exact O5|]. split; [exact O6|].
    apply zero_one_asc. intros t. rewrite !mapf, !map_app.
    rewrite <- merge_asc by (rewrite map_length; eapply okv_len; eauto).
    pose proof (e_1a t _ _ Ho) as X0. pose proof (e_1ad t _ _ Ho') as X1.
    f_equal; (apply (m_fin_a fmn fmx D (f t) (Fn t) (Fx t))); (apply (m_zip D (f t)); [| |exact X0|exact X1]); intros; try (apply Fn; auto); apply Fx; auto.
  Qed.
  Theorem bsort2_dec_ok v0 v1 l0 l1 : okv v0 l0 -> okv v1 l1 -> exists r0 r1 m0 m1, bsort2_dec mn mx p4 s4x2 s128 v0 v1 = Ok (r0, r1) /\
    okv r0 m0 /\ okv r1 m1 /\ Permutation (map K (l0 ++ l1)) (map K (m0 ++ m1)) /\ StronglySorted Z.ge (map K (m0 ++ m1)).
  Proof.
    intros Ho Ho'. unfold bsort2_dec. step (b_first_da _ _ Ho). step (b_fin_d _ _ O). step (b_first_da _ _ Ho'). step (b_fin_a _ _ O1).
    step (Hmx _ _ _ _ O0 O2). step (Hmn _ _ _ _ O0 O2). step (b_fin_d _ _ O3). step (b_fin_d _ _ O4).
    eexists _, _, _, _. split; [reflexivity|]. split; [exact O5|]. split; [exact O6|].
    apply zero_one_dec. intros t. rewrite !mapf, !map_app.
    rewrite <- merge_dec by (rewrite map_length; eapply okv_len; eauto).
    pose proof (e_1d t _ _ Ho) as X0. pose proof (e_1da t _ _ Ho') as X1.
    f_equal; (apply (m_fin_d fmn fmx D (f t) (Fn t) (Fx t))); (apply (m_zip D (f t)); [| |exact X0|exact X1]); intros; try (apply Fn; auto); apply Fx; auto.
  Qed.
End B.
