(** The 0-1 principle for the bitonic networks. *)
From Verif Require Import Spec.Sorted.

Definition thr (t x : Z) : Z := if t <=? x then 1 else 0.
Definition cnt (l : list Z) : nat := length (filter (Z.eqb 1) l).
Definition sort01 (l : list Z) : list Z := repeat 0 (length l - cnt l) ++ repeat 1 (cnt l).

Lemma cnt_thr t l : cnt (map (thr t) l) = length (filter (Z.leb t) l).
Proof.
  unfold cnt. induction l as [|x l IH]; cbn [map filter]; auto. unfold thr at 1.
  destruct (t <=? x); cbn; auto.
Qed.
Lemma cnt_app l m : cnt (l ++ m) = (cnt l + cnt m)%nat.
Proof. unfold cnt. rewrite filter_app, app_length. reflexivity. Qed.
Lemma cnt_repeat0 n : cnt (repeat 0 n) = 0%nat.
Proof. induction n; auto. Qed.
Lemma cnt_repeat1 n : cnt (repeat 1 n) = n.
Proof. unfold cnt. induction n; cbn; auto. Qed.
Lemma cnt_sort01 l : cnt (sort01 l) = cnt l.
Proof. unfold sort01. rewrite cnt_app, cnt_repeat0, cnt_repeat1. reflexivity. Qed.
Lemma cnt_rev l : cnt (rev l) = cnt l.
Proof. induction l; auto. cbn [rev]. rewrite cnt_app, IHl. unfold cnt. cbn. destruct (1 =? a) eqn:E; destruct a; try discriminate; cbn; try lia; destruct p; try discriminate; cbn; lia. Qed.
Lemma count_thr x l : (count_occ Z.eq_dec l x + length (filter (Z.leb (x + 1)) l))%nat = length (filter (Z.leb x) l).
Proof.
  induction l as [|y l IH]; auto. cbn [count_occ filter].
  destruct (Z.leb_spec (x + 1) y), (Z.leb_spec x y), (Z.eq_dec y x); cbn [length]; lia.
Qed.
Lemma perm_thr i o : (forall t, cnt (map (thr t) o) = cnt (map (thr t) i)) -> Permutation i o.
Proof.
  intros H. apply (Permutation_count_occ Z.eq_dec). intros x.
  pose proof (H x) as H1. pose proof (H (x + 1)) as H2. rewrite !cnt_thr in H1, H2.
  pose proof (count_thr x i). pose proof (count_thr x o). lia.
Qed.
Definition asc01 (l : list Z) : Prop := exists n m, l = repeat 0 n ++ repeat 1 m.
Definition dec01 (l : list Z) : Prop := exists n m, l = repeat 1 n ++ repeat 0 m.
Lemma asc_thr o : (forall t, asc01 (map (thr t) o)) -> StronglySorted Z.le o.
Proof.
  induction o as [|x o IH]; intros H; constructor.
  - apply IH. intros t. destruct (H t) as (n & m & E). destruct n as [|n].
    + destruct m as [|m]; [discriminate|]. exists 0%nat, m. injection E as _ E. exact E.
    + exists n, m. injection E as _ E. exact E.
  - destruct (H x) as (n & m & E). cbn [map] in E. destruct n as [|n].
    2: { cbn in E. injection E as E _. unfold thr in E. rewrite Z.leb_refl in E. discriminate. }
    destruct m as [|m]; [discriminate|]. cbn in E. injection E as _ E. clear -E.
    revert m E. induction o as [|y o IH]; intros m E; constructor.
    + destruct m; [discriminate|]. cbn in E. injection E as E _. unfold thr in E. destruct (Z.leb_spec x y); [lia|discriminate].
    + destruct m; [discriminate|]. cbn in E. injection E as _ E. eauto.
Qed.
Lemma dec_thr o : (forall t, dec01 (map (thr t) o)) -> StronglySorted Z.ge o.
Proof.
  induction o as [|x o IH]; intros H; constructor.
  - apply IH. intros t. destruct (H t) as (n & m & E). destruct n as [|n].
    + destruct m as [|m]; [discriminate|]. exists 0%nat, m. injection E as _ E. exact E.
    + exists n, m. injection E as _ E. exact E.
  - destruct (H (x + 1)) as (n & m & E). cbn [map] in E. destruct n as [|n].
    2: { cbn in E. injection E as E _. unfold thr in E. destruct (Z.leb_spec (x + 1) x); [lia|discriminate]. }
    destruct m as [|m]; [discriminate|]. cbn in E. injection E as _ E. clear -E.
    revert m E. induction o as [|y o IH]; intros m E; constructor.
    + destruct m; [discriminate|]. cbn in E. injection E as E _. unfold thr in E. destruct (Z.leb_spec (x + 1) y); [discriminate|lia].
    + destruct m; [discriminate|]. cbn in E. injection E as _ E. eauto.
Qed.
Lemma rev_repeat {X} (x : X) n : rev (repeat x n) = repeat x n.
Proof. induction n; auto. cbn. rewrite IHn. clear. induction n; auto. cbn. rewrite IHn. reflexivity. Qed.
Lemma zero_one_asc i o : (forall t, map (thr t) o = sort01 (map (thr t) i)) -> Permutation i o /\ StronglySorted Z.le o.
Proof.
  intros H. split.
  - apply perm_thr. intros t. rewrite H. apply cnt_sort01.
  - apply asc_thr. intros t. rewrite H. eexists _, _. reflexivity.
Qed.
Lemma zero_one_dec i o : (forall t, map (thr t) o = rev (sort01 (map (thr t) i))) -> Permutation i o /\ StronglySorted Z.ge o.
Proof.
  intros H. split.
  - apply perm_thr. intros t. rewrite H, cnt_rev. apply cnt_sort01.
  - apply dec_thr. intros t. rewrite H. unfold sort01. rewrite rev_app_distr, !rev_repeat. eexists _, _. reflexivity.
Qed.

(** The networks, over any min and max. *)
Section Net.
  Variables mn mx : Z -> Z -> Z.
  Definition n_2ad (l : list Z) : list Z := match l with
    | [a; b; c; d; e; f; g; h] => [mn b a; mx a b; mx d c; mn c d; mn f e; mx e f; mx h g; mn g h] | _ => [] end.
  Definition n_2aa (l : list Z) : list Z := match l with
    | [a; b; c; d; e; f; g; h] => [mn b a; mx a b; mn c d; mx d c; mn f e; mx e f; mn g h; mx h g] | _ => [] end.
  Definition n_2dd (l : list Z) : list Z := match l with
    | [a; b; c; d; e; f; g; h] => [mx b a; mn a b; mx c d; mn d c; mx f e; mn e f; mx g h; mn h g] | _ => [] end.
  Definition n_4a (l : list Z) : list Z := match l with
    | [a; b; c; d; e; f; g; h] => [mn a c; mn b d; mx a c; mx b d; mn e g; mn f h; mx e g; mx f h] | _ => [] end.
  Definition n_4d (l : list Z) : list Z := match l with
    | [a; b; c; d; e; f; g; h] => [mx a c; mx b d; mn a c; mn b d; mx e g; mx f h; mn e g; mn f h] | _ => [] end.
  Definition n_8a (l : list Z) : list Z := match l with
    | [a; b; c; d; e; f; g; h] => [mn a e; mn b f; mn c g; mn d h; mx a e; mx b f; mx c g; mx d h] | _ => [] end.
  Definition n_8d (l : list Z) : list Z := match l with
    | [a; b; c; d; e; f; g; h] => [mx a e; mx b f; mx c g; mx d h; mn a e; mn b f; mn c g; mn d h] | _ => [] end.
  Definition n_rt (l : list Z) : list Z := match l with
    | [a; b; c; d; e; f; g; h] => [a; b; c; d; h; g; f; e] | _ => [] end.
  Definition n_rb (l : list Z) : list Z := match l with
    | [a; b; c; d; e; f; g; h] => [d; c; b; a; e; f; g; h] | _ => [] end.
  Definition n_first (l : list Z) : list Z := n_2aa (n_4a (n_2ad l)).
  Definition n_fin_a (l : list Z) : list Z := n_2aa (n_4a (n_8a l)).
  Definition n_fin_d (l : list Z) : list Z := n_2dd (n_4d (n_8d l)).
End Net.
Section Mono.
  Variables (mn mx : Z -> Z -> Z) (D : Z -> Prop) (f : Z -> Z).
  Hypothesis Hn : forall x y, D x -> D y -> D (mn x y) /\ f (mn x y) = Z.min (f x) (f y).
  Hypothesis Hx : forall x y, D x -> D y -> D (mx x y) /\ f (mx x y) = Z.max (f x) (f y).
  Definition eqv (l k : list Z) : Prop := length l = 8%nat /\ Forall D l /\ map f l = k.
  Ltac go := intros l k (HL & HD & E); subst k;
    do 8 (destruct l as [|? l]; [discriminate HL|]); destruct l; [|discriminate HL]; clear HL;
    repeat match goal with H : Forall _ (_ :: _) |- _ => let A := fresh in apply Forall_cons_iff in H as [A H] end;
    split; [reflexivity|]; split; [repeat constructor; first [assumption | apply Hn; assumption | apply Hx; assumption]|];
    cbn; repeat (f_equal; try (first [apply Hn; assumption | apply Hx; assumption | reflexivity])).
  Lemma m_2ad : forall l k, eqv l k -> eqv (n_2ad mn mx l) (n_2ad Z.min Z.max k). Proof. go. Qed.
  Lemma m_2aa : forall l k, eqv l k -> eqv (n_2aa mn mx l) (n_2aa Z.min Z.max k). Proof. go. Qed.
  Lemma m_2dd : forall l k, eqv l k -> eqv (n_2dd mn mx l) (n_2dd Z.min Z.max k). Proof. go. Qed.
  Lemma m_4a : forall l k, eqv l k -> eqv (n_4a mn mx l) (n_4a Z.min Z.max k). Proof. go. Qed.
  Lemma m_4d : forall l k, eqv l k -> eqv (n_4d mn mx l) (n_4d Z.min Z.max k). Proof. go. Qed.
  Lemma m_8a : forall l k, eqv l k -> eqv (n_8a mn mx l) (n_8a Z.min Z.max k). Proof. go. Qed.
  Lemma m_8d : forall l k, eqv l k -> eqv (n_8d mn mx l) (n_8d Z.min Z.max k). Proof. go. Qed.
  Lemma m_rt : forall l k, eqv l k -> eqv (n_rt l) (n_rt k). Proof. go. Qed.
  Lemma m_rb : forall l k, eqv l k -> eqv (n_rb l) (n_rb k). Proof. go. Qed.
  Lemma m_zip : forall g, (forall x y, D x -> D y -> D (g x y)) -> forall h, (forall x y, D x -> D y -> f (g x y) = h (f x) (f y)) ->
    forall l k l' k', eqv l k -> eqv l' k' -> eqv (zipw g l l') (zipw h k k').
  Proof.
    intros g Hg h Hh l k l' k' (HL & HD & E) (HL' & HD' & E'). subst k k'.
    assert (length l = length l') as EL by lia. split.
    - rewrite <- HL. clear -EL. revert l' EL. induction l; destruct l'; cbn; intros; try lia. rewrite IHl by lia. reflexivity.
    - clear HL HL'. revert l' HD' EL. induction l as [|x l IH]; intros [|y l'] HD' EL; try discriminate EL; cbn; auto.
      apply Forall_cons_iff in HD as [Dx HD]. apply Forall_cons_iff in HD' as [Dy HD'].
      destruct (IH HD l' HD' ltac:(cbn in EL; lia)) as [I1 I2]. split; [constructor; auto|]. rewrite Hh by auto. f_equal. exact I2.
  Qed.
  Lemma m_first l k : eqv l k -> eqv (n_first mn mx l) (n_first Z.min Z.max k).
  Proof. intros H. unfold n_first. apply m_2aa, m_4a, m_2ad, H. Qed.
  Lemma m_fin_a l k : eqv l k -> eqv (n_fin_a mn mx l) (n_fin_a Z.min Z.max k).
  Proof. intros H. unfold n_fin_a. apply m_2aa, m_4a, m_8a, H. Qed.
  Lemma m_fin_d l k : eqv l k -> eqv (n_fin_d mn mx l) (n_fin_d Z.min Z.max k).
  Proof. intros H. unfold n_fin_d. apply m_2dd, m_4d, m_8d, H. Qed.
End Mono.

(** All inputs made of zeros and ones. *)
Fixpoint all01 (n : nat) : list (list Z) :=
  match n with O => [[]] | S n => flat_map (fun l => [0 :: l; 1 :: l]) (all01 n) end.
Lemma all01_in l : Forall (fun x => x = 0 \/ x = 1) l -> In l (all01 (length l)).
Proof.
  induction 1 as [|x l Hx _ IH]; [left; reflexivity|]. cbn [length all01]. apply in_flat_map. exists l. split; auto.
  destruct Hx as [-> | ->]; [left|right; left]; reflexivity.
Qed.
Fixpoint leqb (l m : list Z) : bool :=
  match l, m with [], [] => true | x :: l, y :: m => (x =? y) && leqb l m | _, _ => false end.
Lemma leqb_eq l m : leqb l m = true -> l = m.
Proof.
  revert m. induction l; destruct m; cbn; intros H; try discriminate; auto.
  apply andb_prop in H as [H1 H2]. apply Z.eqb_eq in H1. f_equal; auto.
Qed.
Definition net1a l := n_fin_a Z.min Z.max (n_rt (n_first Z.min Z.max l)).
Definition net1d l := n_fin_d Z.min Z.max (n_rb (n_first Z.min Z.max l)).
Definition net1ad l := n_fin_d Z.min Z.max (n_rt (n_first Z.min Z.max l)).
Definition net1da l := n_fin_a Z.min Z.max (n_rb (n_first Z.min Z.max l)).
Definition check (net : list Z -> list Z) (spec : list Z -> list Z) : bool := forallb (fun l => leqb (net l) (spec l)) (all01 8).
Lemma check_ok net spec l : check net spec = true -> length l = 8%nat -> Forall (fun x => x = 0 \/ x = 1) l -> net l = spec l.
Proof.
  intros H HL HF. apply leqb_eq. pose proof (all01_in l HF) as HI. rewrite HL in HI.
  exact (proj1 (forallb_forall _ _) H l HI).
Qed.
Lemma net1a_ok : check net1a sort01 = true. Proof. vm_compute. reflexivity. Qed.
Lemma net1da_ok : check net1da sort01 = true. Proof. vm_compute. reflexivity. Qed.
Lemma net1d_ok : check net1d (fun l => rev (sort01 l)) = true. Proof. vm_compute. reflexivity. Qed.
Lemma net1ad_ok : check net1ad (fun l => rev (sort01 l)) = true. Proof. vm_compute. reflexivity. Qed.
Lemma sort01_as l : sort01 l = repeat 0 (length l - cnt l) ++ repeat 1 (cnt l). Proof. reflexivity. Qed.
Lemma cnt_le l : (cnt l <= length l)%nat.
Proof. unfold cnt. induction l as [|a l IH]; cbn [filter length]; [lia|]. destruct (1 =? a); cbn [length]; lia. Qed.
Lemma merge_asc l m : length l = 8%nat -> length m = 8%nat ->
  n_fin_a Z.min Z.max (zipw Z.min (sort01 l) (rev (sort01 m))) ++ n_fin_a Z.min Z.max (zipw Z.max (sort01 l) (rev (sort01 m))) = sort01 (l ++ m).
Proof.
  intros HL HM. pose proof (cnt_le l) as C1. pose proof (cnt_le m) as C2.
  rewrite (sort01_as (l ++ m)), app_length, cnt_app. unfold sort01. rewrite HL, HM in *.
  set (p := cnt l) in *. set (q := cnt m) in *. clearbody p q. clear HL HM l m.
  do 9 (destruct p as [|p]; [do 9 (destruct q as [|q]; [reflexivity|]); lia|]). lia.
Qed.
Lemma merge_dec l m : length l = 8%nat -> length m = 8%nat ->
  n_fin_d Z.min Z.max (zipw Z.max (rev (sort01 l)) (sort01 m)) ++ n_fin_d Z.min Z.max (zipw Z.min (rev (sort01 l)) (sort01 m)) = rev (sort01 (l ++ m)).
Proof.
  intros HL HM. pose proof (cnt_le l) as C1. pose proof (cnt_le m) as C2.
  rewrite (sort01_as (l ++ m)), app_length, cnt_app. unfold sort01. rewrite HL, HM in *.
  set (p := cnt l) in *. set (q := cnt m) in *. clearbody p q. clear HL HM l m.
  do 9 (destruct p as [|p]; [do 9 (destruct q as [|q]; [reflexivity|]); lia|]). lia.
Qed.
