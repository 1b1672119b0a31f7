(** C40. *)
From Verif Require Import Spec.Text Model.CpuInfo Thm.T_Preproc.
Open Scope string_scope.

Section Toks.
  Variable sep : ascii -> bool.
  Notation ok := (each (fun c => negb (sep c))).
  Fixpoint toks (cur s : string) : list string :=
    match s with
    | EmptyString => match cur with EmptyString => [] | _ => [cur] end
    | String c s => if sep c then match cur with EmptyString => toks "" s | _ => cur :: toks "" s end
                    else toks (cur ++ String c "") s
    end.
  Lemma app_assoc_s a b c : ((a ++ b) ++ c) = (a ++ b ++ c).
  Proof. induction a as [|x a IH]; cbn; [reflexivity|]. rewrite IH. reflexivity. Qed.
  Lemma app_nil_s a : (a ++ "") = a.
  Proof. induction a as [|x a IH]; cbn; [reflexivity|]. rewrite IH. reflexivity. Qed.
  Lemma each_app P a b : each P (a ++ b) = each P a && each P b.
  Proof. induction a as [|x a IH]; cbn; [reflexivity|]. rewrite IH. apply andb_assoc. Qed.
  Lemma split_first a : forall b c d x y, ok a = true -> ok b = true -> sep c = true -> sep d = true ->
    (a ++ String c x) = (b ++ String d y) -> a = b /\ c = d /\ x = y.
  Proof.
    induction a as [|u a IH]; intros [|v b] c d x y Ha Hb Hc Hd HE; cbn in *.
    - inversion HE. auto.
    - inversion HE; subst. rewrite Hc in Hb. discriminate.
    - inversion HE; subst. rewrite Hd in Ha. discriminate.
    - inversion HE; subst. rewrite andb_true_iff in *. destruct Ha, Hb.
      destruct (IH b c d x y) as (-> & -> & ->); auto.
  Qed.
  Lemma no_sep a b c x : ok a = true -> sep c = true -> a = (b ++ String c x) -> False.
  Proof.
    intros Ha Hc ->. rewrite each_app in Ha. cbn in Ha. rewrite Hc, andb_false_r in Ha. discriminate.
  Qed.
  Lemma toks_sound s : forall cur w, ok cur = true -> In w (toks cur s) -> token sep (cur ++ s) w.
  Proof.
    induction s as [|c s IH]; intros cur w Hc Hw; cbn [toks] in Hw.
    - assert (cur <> "" /\ w = cur) as [Hn ->] by (destruct cur; [destruct Hw|destruct Hw as [<-|[]]; split; auto; discriminate]).
      split; [exact Hn|]. split; [exact Hc|]. exists "", "". rewrite app_nil_s. cbn. rewrite ?app_nil_s. auto.
    - destruct (sep c) eqn:Hs.
      + assert ((cur <> "" /\ w = cur) \/ In w (toks "" s)) as [[Hn ->]|HI].
        { destruct cur; [right; exact Hw|]. destruct Hw as [<-|Hw]; [left; split; auto; discriminate|auto]. }
        * split; [exact Hn|]. split; [exact Hc|]. exists "", (String c s). cbn. split; [reflexivity|].
          split; [auto|]. right. eauto.
        * destruct (IH "" w eq_refl HI) as (H1 & H2 & pre & post & HE & HP & HQ). split; [exact H1|].
          split; [exact H2|]. exists (cur ++ String c pre), post. cbn in HE. split.
          { rewrite HE, app_assoc_s. reflexivity. }
          split; [|exact HQ]. right. destruct HP as [->|(p & d & -> & Hd)].
          { exists cur, c. auto. }
          { exists (cur ++ String c p), d. split; [|exact Hd]. rewrite app_assoc_s. reflexivity. }
      + replace (cur ++ String c s) with ((cur ++ String c "") ++ s) by (rewrite app_assoc_s; reflexivity).
        apply IH; auto. rewrite each_app, Hc. cbn. rewrite Hs. reflexivity.
  Qed.
  Lemma toks_complete s : forall cur w, ok cur = true -> token sep (cur ++ s) w -> In w (toks cur s).
  Proof.
    induction s as [|c s IH]; intros cur w Hc (Hn & Hw & pre & post & HE & HP & HQ); cbn [toks].
    - rewrite app_nil_s in HE.
      assert (pre = "") as ->.
      { destruct HP as [->|(p & d & -> & Hd)]; auto. exfalso. rewrite app_assoc_s in HE.
        exact (no_sep _ _ _ _ Hc Hd HE). }
      assert (post = "") as ->.
      { destruct HQ as [->|(d & q & -> & Hd)]; auto. exfalso. exact (no_sep _ _ _ _ Hc Hd HE). }
      cbn in HE. rewrite app_nil_s in HE. subst w. destruct cur; [congruence|]. left. reflexivity.
    - destruct (sep c) eqn:Hs.
      + assert (w = cur \/ token sep s w) as [->|HT].
        { destruct HP as [->|(p & d & -> & Hd)].
          - destruct HQ as [->|(d & q & -> & Hd)].
            + exfalso. cbn in HE. rewrite app_nil_s in HE. symmetry in HE. exact (no_sep _ _ _ _ Hw Hs HE).
            + left. cbn in HE. destruct (split_first _ _ _ _ _ _ Hc Hw Hs Hd HE) as (E & _). auto.
          - right. split; [exact Hn|]. split; [exact Hw|].
            (* is the separator before w the first one? *)
            assert (forall p, (cur ++ String c s) = (p ++ String d (w ++ post)) ->
              (p = cur /\ s = (w ++ post)) \/ exists p', s = (p' ++ String d (w ++ post))) as HX.
            { clear HE p. revert Hc. induction cur as [|u cur IHc]; intros Hc p HE.
              - destruct p as [|v p]; cbn in HE; inversion HE; subst; eauto.
              - destruct p as [|v p]; cbn in HE; inversion HE; subst.
                + cbn in Hc. rewrite Hd in Hc. discriminate.
                + cbn in Hc. rewrite andb_true_iff in Hc. destruct Hc as [_ Hc].
                  destruct (IHc Hc p H1) as [[-> ->]|(p' & ->)]; eauto. }
            rewrite app_assoc_s in HE. cbn in HE. destruct (HX p HE) as [[-> ->]|(p' & ->)].
            + exists "", post. auto.
            + exists (p' ++ String d ""), post. split; [rewrite app_assoc_s; reflexivity|].
              split; [|exact HQ]. right. eauto. }
        * destruct cur; [congruence|]. left. reflexivity.
        * assert (In w (toks "" s)) by (apply IH; auto). destruct cur; [auto|right; auto].
      + apply IH.
        * rewrite each_app, Hc. cbn. rewrite Hs. reflexivity.
        * split; [exact Hn|]. split; [exact Hw|]. exists pre, post. rewrite app_assoc_s. auto.
  Qed.
End Toks.

Lemma isspace_blank c : isspace c = blank c.
Proof. destruct c as [[] [] [] [] [] [] [] []]; reflexivity. Qed.
Lemma items_toks s : forall cur, items_from cur s = toks blank cur s.
Proof.
  induction s as [|c s IH]; intros cur; cbn [items_from toks]; [reflexivity|].
  rewrite isspace_blank. destruct (blank c); [destruct cur; rewrite IH; reflexivity|apply IH].
Qed.
Lemma items_ok l w : In w (items l) <-> word_of l w.
Proof.
  unfold items. rewrite items_toks. split.
  - intros H. apply toks_sound in H; auto.
  - intros H. apply toks_complete; auto.
Qed.
Lemma getlines_toks s l : l <> "" -> forall cur, In l (getlines_from cur s) <-> In l (toks newline cur s).
Proof.
  intros Hl. induction s as [|c s IH]; intros cur; cbn [getlines_from toks]; [tauto|].
  fold (newline c). destruct (newline c); [|apply IH].
  destruct cur; cbn [In]; rewrite IH; [|tauto].
  split; [intros [<-|H]; [congruence|exact H]|auto].
Qed.
Lemma getlines_ok s l : l <> "" -> In l (getlines s) <-> line_of s l.
Proof.
  intros Hl. unfold getlines. rewrite getlines_toks by auto. split.
  - intros H. apply toks_sound in H; auto.
  - intros H. apply toks_complete; auto.
Qed.
Lemma strip_ok i : forall l r, strip i l = Some r <-> l = (i ++ r).
Proof.
  induction i as [|c i IH]; intros l r; cbn.
  - split; intros H; [injection H as H|]; subst; auto.
  - destruct l as [|d l]; [split; discriminate|]. destruct (Ascii.eqb_spec c d) as [->|N].
    + rewrite IH. split; intros H; [subst; auto|injection H as H; auto].
    + split; [discriminate|]. intros H. inversion H; congruence.
Qed.

(** ---- bits of folds ---- *)
Open Scope Z_scope.
Lemma fold_or_bit {T} (f : T -> Z -> Z) (hit : T -> Prop) k :
  (forall x r, Z.testbit (f x r) k = true <-> Z.testbit r k = true \/ hit x) ->
  forall l r, Z.testbit (fold_left (fun r x => f x r) l r) k = true <->
    Z.testbit r k = true \/ exists x, In x l /\ hit x.
Proof.
  intros Hf l. induction l as [|x l IH]; intros r; cbn [fold_left].
  - split; [auto|]. intros [H|(x & [] & _)]; auto.
  - rewrite IH, Hf. split.
    + intros [[H|H]|(y & H1 & H2)]; auto; right; [exists x|exists y]; cbn; auto.
    + intros [H|(y & [<-|H1] & H2)]; auto. right. eauto.
Qed.
Lemma find_in k m v : find k m = Some v -> In (k, v) m.
Proof.
  induction m as [|[k' v'] m IH]; cbn; [discriminate|]. destruct (String.eqb_spec k k') as [->|].
  - intros H. injection H as ->. auto.
  - auto.
Qed.
Lemma in_find m : NoDup (map fst m) -> forall k v, In (k, v) m -> find k m = Some v.
Proof.
  induction m as [|[k' v'] m IH]; cbn; intros HN k v; [intros []|]. inversion HN as [|? ? H1 H2]; subst.
  intros [H|H].
  - injection H as -> ->. rewrite String.eqb_refl. reflexivity.
  - destruct (String.eqb_spec k k') as [->|]; [|auto]. exfalso. apply H1.
    apply (in_map fst) in H. exact H.
Qed.
Definition str_in (x : string) (l : list string) : bool := existsb (String.eqb x) l.
Fixpoint distinct (l : list string) : bool :=
  match l with [] => true | x :: l => negb (str_in x l) && distinct l end.
Lemma distinct_ok l : distinct l = true -> NoDup l.
Proof.
  induction l as [|x l IH]; cbn; intros H; [constructor|]. rewrite andb_true_iff, negb_true_iff in H.
  destruct H as [H1 H2]. constructor; auto. intros HI. apply not_true_iff_false in H1. apply H1.
  unfold str_in. apply existsb_exists. exists x. split; auto. apply String.eqb_refl.
Qed.

(** ---- the specification: names, and what each implies ---- *)
(** names used by the kernel in /proc/cpuinfo *)
Definition kernel_name (f : isa) : option string :=
  match f with
  | SSE2 => Some "sse2" | SSE3 => Some "pni" | SSSE3 => Some "ssse3" | SSE4_1 => Some "sse4_1"
  | POPCNT => Some "popcnt" | AVX => Some "avx" | AVX2 => Some "avx2" | FMA3 => Some "fma"
  | FMA4 => Some "fma4" | XOP => Some "xop" | AVX512F => Some "avx512f" | AVX512BW => Some "avx512bw"
  | AVX512DQ => Some "avx512dq" | AVX512VL => Some "avx512vl" | _ => None
  end%string.
(** names documented in detail/insn_id.h, without the leading underscore *)
Definition list_name (f : isa) : string :=
  match f with
  | SSE2 => "sse2" | SSE3 => "sse3" | SSSE3 => "ssse3" | SSE4_1 => "sse4p1" | POPCNT => "popcnt"
  | AVX => "avx" | AVX2 => "avx2" | FMA3 => "fma3" | FMA4 => "fma4" | XOP => "xop"
  | AVX512F => "avx512f" | AVX512BW => "avx512bw" | AVX512DQ => "avx512dq" | AVX512VL => "avx512vl"
  | NEON => "neon" | NEON_FLT_SP => "neonfltsp" | ALTIVEC => "altivec" | VSX_206 => "vsx_206"
  | VSX_207 => "vsx_207" | MSA => "msa"
  end%string.
(** a processor announcing [f] offers [g]; the POPCNT flag only stands for itself *)
Definition offers (f g : isa) : Prop := implies f g /\ (f = POPCNT -> g = POPCNT).

(** the documented implications, decided *)
Definition up (f : isa) : list isa :=
  match f with
  | SSE2 => [SSE2] | SSE3 => [SSE3; SSE2] | SSSE3 => [SSSE3; SSE3; SSE2]
  | SSE4_1 => [SSE4_1; SSSE3; SSE3; SSE2] | POPCNT => [POPCNT; SSSE3; SSE3; SSE2]
  | AVX => [AVX; SSE4_1; SSSE3; SSE3; SSE2] | AVX2 => [AVX2; AVX; SSE4_1; SSSE3; SSE3; SSE2]
  | FMA3 => [FMA3; SSE3; SSE2] | FMA4 => [FMA4; SSE3; SSE2] | XOP => [XOP; SSE3; SSE2]
  | AVX512F => [AVX512F; AVX2; AVX; SSE4_1; SSSE3; SSE3; SSE2]
  | AVX512BW => [AVX512BW; AVX512F; AVX2; AVX; SSE4_1; SSSE3; SSE3; SSE2]
  | AVX512DQ => [AVX512DQ; AVX512F; AVX2; AVX; SSE4_1; SSSE3; SSE3; SSE2]
  | AVX512VL => [AVX512VL; AVX512F; AVX2; AVX; SSE4_1; SSSE3; SSE3; SSE2]
  | NEON => [NEON] | NEON_FLT_SP => [NEON_FLT_SP; NEON] | ALTIVEC => [ALTIVEC]
  | VSX_206 => [VSX_206; ALTIVEC] | VSX_207 => [VSX_207; VSX_206; ALTIVEC] | MSA => [MSA]
  end.
Lemma implies_up f g : implies f g <-> In g (up f).
Proof.
  split.
  - intros H. apply clos_rt_rtn1 in H. induction H as [|y z H _ IH]; [destruct f; cbn; auto|].
    destruct H, f; cbn in *; intuition congruence.
  - intros H. unfold implies.
    destruct f; cbn in H; repeat (destruct H as [<-|H]); try contradiction;
      repeat (first [apply rt_refl | eapply rt_trans; [apply rt_step; constructor|]]).
Qed.

Definition fam_plat (p : platform) : family :=
  match p with P_X86 => X86 | P_ARM32 | P_ARM64 => ARM | P_PPC => POWER | P_MIPS => MIPS end.
(** on 64-bit ARM, NEON includes single precision floating point *)
Definition offers_on (p : platform) (f g : isa) : Prop :=
  offers f g \/ (p = P_ARM64 /\ f = NEON /\ g = NEON_FLT_SP).
Definition isa_in (g : isa) (l : list isa) : bool := existsb (isa_eqb g) l.
Lemma isa_in_ok g l : isa_in g l = true <-> In g l.
Proof.
  unfold isa_in. rewrite existsb_exists. split.
  - intros (x & H & E). apply isa_eqb_eq in E. subst. auto.
  - intros H. exists g. split; auto. unfold isa_eqb. destruct (isa_eq_dec g g); congruence.
Qed.
Definition offersb (p : platform) (f g : isa) : bool :=
  match f with
  | POPCNT => isa_in g [POPCNT]
  | NEON => match p with P_ARM64 => isa_in g [NEON; NEON_FLT_SP] | _ => isa_in g [NEON] end
  | _ => isa_in g (up f)
  end.
Lemma offersb_ok p f g : offersb p f g = true <-> offers_on p f g.
Proof.
  unfold offers_on, offers. rewrite implies_up. unfold offersb.
  destruct f; try (rewrite isa_in_ok; split; [intros H; left; split; [exact H|discriminate]|];
    intros [[H _]|(_ & H & _)]; [exact H|discriminate]).
  - rewrite isa_in_ok. cbn. split; [intros [<-|[]]; auto|].
    intros [[_ H]|(_ & H & _)]; [|discriminate]. left. symmetry. auto.
  - destruct p; rewrite isa_in_ok; cbn; split; intuition (try congruence).
Qed.

Definition fam_isas (F : family) : list isa :=
  match F with
  | X86 => [SSE2; SSE3; SSSE3; SSE4_1; POPCNT; AVX; AVX2; FMA3; FMA4; XOP; AVX512F; AVX512BW; AVX512DQ; AVX512VL]
  | ARM => [NEON; NEON_FLT_SP] | POWER => [ALTIVEC; VSX_206; VSX_207] | MIPS => [MSA]
  end.
Lemma fam_isas_ok f : In f (fam_isas (fam_of f)).
Proof. destruct f; cbn; auto 20. Qed.
Lemma in_fam F f : In f (fam_isas F) -> fam_of f = F.
Proof. destruct F; cbn; intros H; repeat (destruct H as [<-|H]); try contradiction; reflexivity. Qed.
(** the mask the tables give to a name *)
Definition tab (m : list (string * Z)) (n : string) : Z := match find n m with Some v => v | None => 0 end.
Lemma list_table p : list_features p = map (fun f => (list_name f, tab (list_features p) (list_name f))) (fam_isas (fam_plat p)).
Proof. destruct p; reflexivity. Qed.
Lemma list_bits p f g : In f (fam_isas (fam_plat p)) -> In g (fam_isas (fam_plat p)) ->
  Z.testbit (tab (list_features p) (list_name f)) (arch_bit g) = offersb p f g.
Proof.
  intros Hf Hg.
  assert (forallb (fun f => forallb (fun g => Bool.eqb (Z.testbit (tab (list_features p) (list_name f)) (arch_bit g))
    (offersb p f g)) (fam_isas (fam_plat p))) (fam_isas (fam_plat p)) = true) as H by (destruct p; vm_compute; reflexivity).
  rewrite forallb_forall in H. specialize (H f Hf). rewrite forallb_forall in H. apply eqb_prop. apply H. auto.
Qed.
(** C40, second half: an instruction set is reported exactly when some string of the list
    is the prefix followed by the name of an instruction set that offers it.  (So unknown
    names and strings with another prefix have no effect, nor do order and repetition.) *)
Theorem string_list_spec : forall p strings prefix g, fam_of g = fam_plat p ->
  Z.testbit (get_arch_string_list p strings prefix) (arch_bit g) = true <->
  exists s f, In s strings /\ fam_of f = fam_plat p /\ offers_on p f g /\
    s = (match prefix with Some x => x | None => "" end ++ list_name f)%string.
Proof.
  intros p strings prefix g Hg. unfold get_arch_string_list. cbv zeta.
  set (pre := match prefix with Some x => x | None => ""%string end). rewrite <- Hg in *.
  assert (In g (fam_isas (fam_plat p))) as Hg' by (rewrite <- Hg; apply fam_isas_ok).
  rewrite (fold_or_bit (fun s res => if (String.length s <? String.length pre)%nat then res else
     match strip pre s with None => res | Some s => fold_left (fun res f => if String.eqb s (fst f) then Z.lor res (snd f) else res)
                       (list_features p) res end)
     (fun s => exists f, fam_of f = fam_of g /\ offers_on p f g /\ s = (pre ++ list_name f)%string)).
  - rewrite Z.testbit_0_l. split.
    + intros [H|(s & H1 & f & H2 & H3 & H4)]; [discriminate|]. eauto 8.
    + intros (s & f & H1 & H2 & H3 & H4). right. eauto 8.
  - intros s r. destruct (Nat.ltb_spec (String.length s) (String.length pre)) as [HL|HL].
    + split; [auto|]. intros [H|(f & _ & _ & ->)]; auto. exfalso.
      assert (forall a b, String.length (a ++ b) = (String.length a + String.length b)%nat) as HA
        by (induction a as [|c a IH]; intros b; cbn; auto).
      rewrite HA in HL. lia.
    + destruct (strip pre s) as [t|] eqn:HS.
      * apply strip_ok in HS. subst s.
        rewrite (fold_or_bit (fun f res => if String.eqb t (fst f) then Z.lor res (snd f) else res)
          (fun f => t = fst f /\ Z.testbit (snd f) (arch_bit g) = true)).
        2:{ intros [n v] r'. cbn. destruct (String.eqb_spec t n) as [->|N].
            - rewrite Z.lor_spec, orb_true_iff. tauto.
            - split; [auto|]. intros [H|[H _]]; tauto. }
        assert ((exists x, In x (list_features p) /\ t = fst x /\ Z.testbit (snd x) (arch_bit g) = true) <->
                (exists f, fam_of f = fam_of g /\ offers_on p f g /\ (pre ++ t)%string = (pre ++ list_name f)%string)) as HX.
        { rewrite list_table. split.
          - intros (x & HI & H1 & H2). apply in_map_iff in HI. destruct HI as (f & <- & Hf). cbn in *.
            rewrite list_bits in H2 by auto. apply offersb_ok in H2. exists f. rewrite H1.
            split; [rewrite (in_fam _ _ Hf); auto|auto].
          - intros (f & H1 & H2 & H3). exists (list_name f, tab (list_features p) (list_name f)).
            assert (In f (fam_isas (fam_plat p))) as Hf by (rewrite <- Hg, <- H1; apply fam_isas_ok).
            split; [apply in_map_iff; eauto|]. cbn. split.
            + revert H3. clear. induction pre as [|c pre IH]; cbn; auto. intros H. injection H as H. auto.
            + rewrite list_bits by auto. apply offersb_ok. exact H2. }
        rewrite HX. tauto.
      * split; [auto|]. intros [H|(f & _ & _ & ->)]; auto. exfalso.
        assert (strip pre (pre ++ list_name f) = Some (list_name f)) by (apply strip_ok; reflexivity). congruence.
Qed.

(** the table of the /proc/cpuinfo reader: names of x86 features, and of NEON on ARM *)
Definition cpuinfo_name (p : platform) (f : isa) : option string :=
  match p, f with
  | P_X86, _ => kernel_name f
  | P_ARM32, NEON_FLT_SP => Some "neon" | P_ARM64, NEON_FLT_SP => Some "asimd" | _, _ => None
  end%string.
Definition cpuinfo_isas (p : platform) : list isa :=
  match p with P_X86 => fam_isas X86 | P_ARM32 | P_ARM64 => [NEON_FLT_SP] | _ => [] end.
Definition nm (p : platform) (f : isa) : string := match cpuinfo_name p f with Some n => n | None => ""%string end.
Lemma cpuinfo_names p f n : cpuinfo_name p f = Some n <-> In f (cpuinfo_isas p) /\ n = nm p f.
Proof. unfold nm. destruct p, f; cbn; split; intuition (try congruence). Qed.
Lemma cpuinfo_bits p f g : In f (cpuinfo_isas p) -> In g (fam_isas (fam_plat p)) ->
  exists v, find (nm p f) (cpuinfo_features p) = Some v /\ Z.testbit v (arch_bit g) = offersb p f g.
Proof.
  intros Hf Hg. assert (forallb (fun f => match find (nm p f) (cpuinfo_features p) with None => false | Some v =>
    forallb (fun g => Bool.eqb (Z.testbit v (arch_bit g)) (offersb p f g)) (fam_isas (fam_plat p)) end)
    (cpuinfo_isas p) = true) as H by (destruct p; vm_compute; reflexivity).
  rewrite forallb_forall in H. specialize (H f Hf). destruct (find (nm p f) (cpuinfo_features p)); [|discriminate].
  rewrite forallb_forall in H. eexists. split; [reflexivity|]. apply eqb_prop. apply H. auto.
Qed.
Lemma cpuinfo_find p n v : find n (cpuinfo_features p) = Some v -> exists f, In f (cpuinfo_isas p) /\ n = nm p f.
Proof.
  intros H. apply find_in in H. apply (in_map fst) in H. cbn in H.
  assert (map fst (cpuinfo_features p) = map (nm p)
    (match p with P_X86 => [SSE2; SSE3; SSSE3; SSE4_1; AVX; AVX2; POPCNT; FMA3; FMA4; XOP; AVX512F; AVX512BW; AVX512DQ; AVX512VL]
     | _ => cpuinfo_isas p end)) as HE by (destruct p; reflexivity).
  rewrite HE in H. apply in_map_iff in H. destruct H as (f & <- & Hf). exists f. split; auto.
  destruct p; cbn in *; tauto.
Qed.
(** C40, first half: an instruction set is reported exactly when some line of
    /proc/cpuinfo starts with the identification string and has, after it, a word naming an
    instruction set that offers it. *)
Theorem cpuinfo_spec : forall p text g, In p [P_X86; P_ARM32; P_ARM64] -> fam_of g = fam_plat p ->
  Z.testbit (get_arch_linux_cpuinfo p (Some text)) (arch_bit g) = true <->
  exists line rest w f, line_of text line /\ line = (cpuinfo_ident p ++ rest)%string /\
    word_of rest w /\ cpuinfo_name p f = Some w /\ offers_on p f g.
Proof.
  intros p text g Hp Hg.
  assert (In g (fam_isas (fam_plat p))) as Hg' by (rewrite <- Hg; apply fam_isas_ok).
  assert (get_arch_linux_cpuinfo p (Some text) = fold_left (fun res line =>
        match strip (cpuinfo_ident p) line with
        | None => res
        | Some rest => match_items p (items rest) res
        end) (getlines text) 0) as -> by (destruct p; cbn in Hp; try reflexivity; intuition discriminate).
  rewrite (fold_or_bit (fun line res => match strip (cpuinfo_ident p) line with
        | None => res | Some rest => match_items p (items rest) res end)
     (fun line => exists rest w f, line = (cpuinfo_ident p ++ rest)%string /\
       word_of rest w /\ cpuinfo_name p f = Some w /\ offers_on p f g)).
  - rewrite Z.testbit_0_l. split.
    + intros [H|(l & H1 & rest & w & f & H2 & H3 & H4 & H5)]; [discriminate|].
      exists l, rest, w, f. split; [|auto 10]. apply getlines_ok; auto. subst l. destruct p; discriminate.
    + intros (l & rest & w & f & H1 & H2 & H3 & H4 & H5). right. exists l. split; [|eauto 10].
      apply getlines_ok; auto. apply H1.
  - intros line r. destruct (strip (cpuinfo_ident p) line) as [rest|] eqn:HS.
    + apply strip_ok in HS. unfold match_items.
      rewrite (fold_or_bit (fun it res => match find it (cpuinfo_features p) with Some v => Z.lor res v | None => res end)
        (fun w => exists f, cpuinfo_name p f = Some w /\ offers_on p f g)).
      * split.
        { intros [H|(w & H1 & f & H2 & H3)]; [auto|]. right. exists rest, w, f. apply items_ok in H1. auto. }
        { intros [H|(rest' & w & f & H1 & H2 & H3 & H4)]; [auto|]. right. exists w.
          assert (rest' = rest) as ->.
          { rewrite HS in H1. assert (strip (cpuinfo_ident p) (cpuinfo_ident p ++ rest) = Some rest') by (apply strip_ok; auto).
            assert (strip (cpuinfo_ident p) (cpuinfo_ident p ++ rest) = Some rest) by (apply strip_ok; auto). congruence. }
          split; [apply items_ok; auto|eauto]. }
      * intros w r'. destruct (find w (cpuinfo_features p)) as [v|] eqn:HF.
        { destruct (cpuinfo_find _ _ _ HF) as (f & Hf & ->).
          destruct (cpuinfo_bits p f g Hf Hg') as (v' & Hv1 & Hv2). rewrite HF in Hv1. injection Hv1 as <-.
          rewrite Z.lor_spec, orb_true_iff, Hv2, offersb_ok. split.
          - intros [H|H]; [auto|]. right. exists f. split; auto. apply cpuinfo_names. auto.
          - intros [H|(f' & H1 & H2)]; [auto|]. right. apply cpuinfo_names in H1. destruct H1 as [H1 H3].
            destruct (cpuinfo_bits p f' g H1 Hg') as (v' & Hv1' & Hv2'). rewrite <- H3, HF in Hv1'. injection Hv1' as <-.
            apply offersb_ok. rewrite <- Hv2, Hv2'. apply offersb_ok. exact H2. }
        { split; [auto|]. intros [H|(f & H1 & H2)]; [auto|]. exfalso. apply cpuinfo_names in H1. destruct H1 as [H1 ->].
          destruct (cpuinfo_bits p f g H1 Hg') as (v' & Hv1 & _). congruence. }
    + split; [auto|]. intros [H|(rest & w & f & -> & _)]; [auto|]. exfalso.
      assert (strip (cpuinfo_ident p) (cpuinfo_ident p ++ rest) = Some rest) by (apply strip_ok; reflexivity). congruence.
Qed.
(** consequence: order and repetition of the strings do not matter *)
Theorem string_list_order : forall p l1 l2 prefix g, fam_of g = fam_plat p ->
  (forall s, In s l1 <-> In s l2) ->
  Z.testbit (get_arch_string_list p l1 prefix) (arch_bit g) = Z.testbit (get_arch_string_list p l2 prefix) (arch_bit g).
Proof.
  intros p l1 l2 prefix g Hg H. apply eq_true_iff_eq. rewrite !string_list_spec by auto.
  split; intros (s & f & H1 & H2); exists s, f; (split; [apply H; auto|auto]).
Qed.
Theorem cpuinfo_unreadable : forall p, get_arch_linux_cpuinfo p None = 0.
Proof. intros []; reflexivity. Qed.

Open Scope string_scope.
Example string_list_case :
  get_arch_string_list P_X86 ["xavx"; "avx"; "x--foo"; "xpopcnt"] (Some "x") = 0x7e%Z /\
  get_arch_string_list P_ARM64 ["neon"] None = 3%Z.
Proof. split; reflexivity. Qed.
Definition nl1 : string := String "010" "". Definition tab1 : string := String "009" "".
Example cpuinfo_case :
  get_arch_linux_cpuinfo P_X86 (Some ("model name" ++ tab1 ++ ": avx2" ++ nl1 ++ "flags" ++ tab1 ++ ": fpu pni  sse2 avx2x" ++ nl1 ++ nl1)) = 6%Z.
Proof. reflexivity. Qed.
