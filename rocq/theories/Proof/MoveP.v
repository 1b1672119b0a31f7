(** Moves select the lanes they should. *)
From Verif Require Export Proof.SelTac Spec.Shuffles Model.Move.

Lemma Ok_c {X} (x y : X) : x = y -> Ok x = Ok y.
Proof. intros ->. reflexivity. Qed.
Ltac okc := lazymatch goal with |- Ok _ = Ok _ => apply Ok_c end.
Ltac sh_leaf G := idtac; okc; selg G.
Lemma i_move16_l_ok A s sh a : valid_arch A = true -> avail_int A 8 s = true -> reg (rbits s) a ->
  0 <= sh < 16 -> (sh =? 0) = false -> i_move16_l A s sh a = Ok (lsh 8 (rbits s) 16 (p_move_l 16 sh) [a]).
Proof.
  intros HV HA Ha Hs Hn. unfold i_move16_l.
  destruct s; cbn [rbits] in *; lad HV HA ltac:(sh_leaf 16).
Qed.
Lemma i_move16_r_ok A s sh a : valid_arch A = true -> avail_int A 8 s = true -> reg (rbits s) a ->
  0 <= sh < 16 -> (sh =? 0) = false -> i_move16_r A s sh a = Ok (lsh 8 (rbits s) 16 (p_move_r 16 sh) [a]).
Proof.
  intros HV HA Ha Hs Hn. unfold i_move16_r.
  destruct s; cbn [rbits] in *; lad HV HA ltac:(sh_leaf 16).
Qed.
(** through bytes *)
Ltac byte_leaf L HV := idtac; first [
   rewrite L by (auto; lia); f_equal; eapply (Sel_goal _ 16); [sel | enum] | f_equal; selg 16 ].
Lemma mul_neq0 sh k : 0 < k -> (sh =? 0) = false -> (sh * k =? 0) = false.
Proof. rewrite !Z.eqb_neq. nia. Qed.
#[local] Hint Resolve mul_neq0 : core.
#[local] Hint Extern 1 (0 < _) => lia : core.
Lemma reg_extract128 i a : reg 128 (mm_extract128 i a).
Proof. apply lane_range. lia. Qed.
#[global] Hint Resolve reg_extract128 : core.
Ltac flt_l L := idtac;
  first [ rewrite L by (auto; lia); f_equal; selg 16
        | f_equal; selg 16 | f_equal; selg 64
        | rewrite !L by (auto; lia); cbn [bind]; f_equal; selg 32 ].
Ltac mv_unf := repeat match goal with
  | |- (if ?c then ?f else NotImpl) = _ => lazymatch f with Ok _ => fail | _ => progress unfold i_move4_l, i_move4_r end
  end.
Ltac mv_start :=
  match goal with |- ?f _ _ _ _ = _ => unfold f, scalar64, u8x32, use_neon64, use_neon32, use_neon_no_flt_sp end;
  repeat match goal with |- context [en ?e] => let x := eval compute in (en e) in change (en e) with x in * end.
Lemma i_move_l_ok A e s sh a : valid_arch A = true -> avail_et A e s = true -> reg (rbits s) a ->
  0 <= sh < en e -> (sh =? 0) = false ->
  i_move_l A e s sh a = Ok (lsh (eb e) (rbits s) (en e) (p_move_l (en e) sh) [a]).
Proof.
  intros HV HA Ha Hs Hn.
  destruct e; cbn [i_move_l eb avail_et] in *; [apply i_move16_l_ok; auto|..]; mv_start;
  destruct s; cbn [rbits] in *; mv_unf.
  all: lad HV HA ltac:(flt_l i_move16_l_ok).
Qed.
Lemma i_move_r_ok A e s sh a : valid_arch A = true -> avail_et A e s = true -> reg (rbits s) a ->
  0 <= sh < en e -> (sh =? 0) = false ->
  i_move_r A e s sh a = Ok (lsh (eb e) (rbits s) (en e) (p_move_r (en e) sh) [a]).
Proof.
  intros HV HA Ha Hs Hn.
  destruct e; cbn [i_move_r eb avail_et] in *; [apply i_move16_r_ok; auto|..]; mv_start;
  destruct s; cbn [rbits] in *; mv_unf.
  all: lad HV HA ltac:(flt_l i_move16_r_ok).
Qed.
Lemma i_move_l_wrapper_ok A e s sh a : valid_arch A = true -> avail_et A e s = true -> reg (rbits s) a ->
  0 <= sh <= en e ->
  i_move_l_wrapper A e s sh a = Ok (lsh (eb e) (rbits s) (en e) (p_move_l (en e) sh) [a]).
Proof.
  intros HV HA Ha Hs. unfold i_move_l_wrapper. destruct (sh =? 0) eqn:E0.
  - apply Z.eqb_eq in E0. subst sh. destruct e, s; cbn [rbits] in *; sh_leaf 16.
  - destruct (sh =? en e) eqn:E1.
    + apply Z.eqb_eq in E1. subst sh. clear. destruct e, s; cbn [rbits] in *; sh_leaf 16.
    + apply i_move_l_ok; auto. lia.
Qed.
Lemma i_move_r_wrapper_ok A e s sh a : valid_arch A = true -> avail_et A e s = true -> reg (rbits s) a ->
  0 <= sh <= en e ->
  i_move_r_wrapper A e s sh a = Ok (lsh (eb e) (rbits s) (en e) (p_move_r (en e) sh) [a]).
Proof.
  intros HV HA Ha Hs. unfold i_move_r_wrapper. destruct (sh =? 0) eqn:E0.
  - apply Z.eqb_eq in E0. subst sh. destruct e, s; cbn [rbits] in *; sh_leaf 16.
  - destruct (sh =? en e) eqn:E1.
    + apply Z.eqb_eq in E1. subst sh. clear. destruct e, s; cbn [rbits] in *; sh_leaf 16.
    + apply i_move_r_ok; auto. lia.
Qed.
