(** Tactics around [Sel]: compute the selection of an expression, compare it with the wanted
    one for all values of the selectors. *)
From Verif Require Export Proof.SelIsa.

Lemma implb_intro (b v P : bool) : implb (Bool.eqb b v) P = true -> b = v -> P = true.
Proof. intros H ->. rewrite Bool.eqb_reflx in H. exact H. Qed.
(** selectors range over finite intervals: all cases at once *)
Ltac enum_pairs :=
  repeat match goal with
  | H1 : 0 <= ?s, H2 : ?s < ?n |- _ =>
      let H := fresh "H" in pose proof (conj H1 H2 : 0 <= s < n) as H; clear H1 H2
  end.
Ltac enum_hyps :=
  repeat match goal with
  | E : ?b = ?v, H : 0 <= ?s < _ |- _ = true =>
      is_var s; lazymatch type of b with bool => idtac end;
      lazymatch b with context [s] => idtac end; revert E; apply implb_intro
  end.
Ltac enum_vars :=
  repeat match goal with
  | H : 0 <= ?s < ?n |- _ = true =>
      is_var s; revert s H;
      lazymatch goal with |- forall s, _ -> @?Q s = true => refine (forallb_zrange Q n _) end
  end.
Ltac closed_goal :=
  match goal with
  | s : Z |- ?c = true => match c with context [s] => fail 2 "selector not enumerated" s end
  | _ => idtac
  end.
Ltac enum := enum_pairs; enum_hyps; enum_vars;
  closed_goal; vm_compute; reflexivity.

(** extended later, for helper functions of the library *)
Ltac sel_ext e := fail.
Ltac sel_head e := lazymatch e with
  | ?f _ _ _ _ _ _ => f | ?f _ _ _ _ _ => f | ?f _ _ _ _ => f | ?f _ _ _ => f | ?f _ _ => f | ?f _ => f end.
Ltac sel :=
  lazymatch goal with
  | |- Sel _ _ _ 0 _ _ => apply Sel_zero
  | |- Sel _ _ _ (lsh _ _ _ _ [_]) _ _ => apply Sel_lsh1; sel
  | |- Sel _ _ _ (lsh _ _ _ _ [_; _]) _ _ => apply Sel_lsh2; sel
  | |- Sel _ _ _ (lsh _ _ _ _ [_; _; _]) _ _ => apply Sel_lsh3; sel
  | |- Sel _ _ _ (lsh _ _ _ _ [_; _; _; _]) _ _ => apply Sel_lsh4; sel
  | |- Sel _ _ _ (Z.lor _ _) _ _ => apply Sel_lor; sel
  | |- Sel _ _ _ (if _ then _ else _) _ _ => apply Sel_if; sel
  | |- Sel _ _ _ (Z.land _ (splat _ _ _)) _ _ => apply Sel_land_r; sel
  | |- Sel _ _ _ (Z.ldiff _ (splat _ _ _)) _ _ => apply Sel_ldiff_r; sel
  | |- Sel _ _ _ (vget_low _) _ _ => apply Sel_vget_low; sel
  | |- Sel _ _ _ (vget_high _) _ _ => apply Sel_vget_high; sel
  | |- Sel _ _ _ (vcombine _ _) _ _ => apply Sel_vcombine; sel
  | |- Sel _ _ _ (mm_extract128 _ _) _ _ => apply Sel_extract128; [split; reflexivity || discriminate|sel]
  | |- Sel _ _ _ (mm_combine128 _ _) _ _ => apply Sel_combine128; sel
  | |- Sel _ _ _ (mm_sll _ _ _ _) _ _ => apply Sel_mm_sll; sel
  | |- Sel _ _ _ (mm_srl _ _ _ _) _ _ => apply Sel_mm_srl; sel
  | |- Sel _ _ _ (vshlq_n _ ?c _) _ _ => unfold vshlq_n; eapply (Sel_shl _ _ _ _ _ c); [sel|reflexivity]
  | |- Sel _ _ _ (vshrq_n_u _ ?c _) _ _ => unfold vshrq_n_u; eapply (Sel_shr _ _ _ _ _ c); [sel|reflexivity]
  | |- Sel _ _ _ (mm_shuffle_pd _ _ _ _) _ _ => rewrite shuffle_pd_lsh by reflexivity; sel
  | |- Sel _ _ _ (mm_blend _ _ _ _ _) _ _ => rewrite blend_lsh by reflexivity; sel
  | |- Sel _ _ _ (mm_maskz _ _ _ _) _ _ => rewrite maskz_lsh by reflexivity; sel
  | |- Sel _ _ _ (mm_maskm _ _ _ _ _) _ _ => rewrite maskm_lsh by reflexivity; sel
  | |- Sel _ _ _ (mm_alignr_w _ _ _ _ _) _ _ => rewrite alignr_w_lsh by reflexivity; sel
  | |- Sel _ _ _ (splat _ _ (lane _ _ _)) _ _ => rewrite splat_lane_lsh by reflexivity; sel
  | |- Sel _ _ _ ?e _ _ =>
      first [ is_var e; first [ apply (Sel_arg _ _ _ 0%nat); [reflexivity|assumption]
                    | apply (Sel_arg _ _ _ 1%nat); [reflexivity|assumption]
                    | apply (Sel_arg _ _ _ 2%nat); [reflexivity|assumption]
                    | apply (Sel_arg _ _ _ 3%nat); [reflexivity|assumption] ]
            | sel_ext e; sel
            | let f := sel_head e in progress unfold f; cbv beta; sel ]
  end.
(** prove e = lsh w R n L env; G: bytes per group *)
Ltac selg G := eapply (Sel_goal _ G); [ sel | enum ].
