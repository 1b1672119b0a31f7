(** Unsigned division of the P least significant bits (core/i_div_p.h:27-35).  Mentions no library
    code. *)
From Verif Require Export Spec.Lanewise.
Definition s_div_p (P x y : Z) : Z := (x mod 2 ^ P) / (y mod 2 ^ P).
(** r is the register whose lanes are f of the lanes of a and b *)
Definition lanes2 (w R : Z) (f : Z -> Z -> Z) (a b r : Z) : Prop :=
  0 <= r < 2 ^ R /\ forall i, 0 <= i < R / w -> lane w i r = f (lane w i a) (lane w i b).
