(** Byte selection by a run-time mask.  Mentions no library code. *)
From Verif Require Export Spec.Lanewise.

(** Byte q of the result, when the bytes of the arguments are [la], [lb] and the mask byte
    is c: zero if bit 7 of c is set; otherwise bit 4 selects the argument and bits 3-0 the
    byte within the 16-byte block that contains q. *)
Definition byte_sel (la lb : list Z) (q c : Z) : Z :=
  if Z.testbit c 7 then 0
  else nth (Z.to_nat (16 * (q / 16) + c mod 16)) (if Z.testbit c 4 then lb else la) 0.

(** mask bytes a caller may use: all bits outside [bits] zero *)
Definition legal (bits c : Z) : Prop := Z.ldiff c bits = 0.

(** [op va vb vm]: every byte is selected by the corresponding mask byte *)
Definition selects (s : rsz) (bits : Z) (op : vec -> vec -> vec -> res vec) : Prop :=
  forall va vb vm, wfv s va -> wfv s vb -> wfv s vm -> length va = length vb -> length va = length vm ->
  Forall (legal bits) (lanes 8 s vm) ->
  exists vr, op va vb vm = Ok vr /\ wfv s vr /\ length vr = length va /\
    forall q, 0 <= q < Z.of_nat (length (lanes 8 s va)) ->
      nth (Z.to_nat q) (lanes 8 s vr) 0 =
      byte_sel (lanes 8 s va) (lanes 8 s vb) q (nth (Z.to_nat q) (lanes 8 s vm) 0).
