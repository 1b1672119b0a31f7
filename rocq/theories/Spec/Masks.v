(** What a mask value means.  A mask register stands for one boolean per lane; how it is
    stored depends on the configuration ([mk_int], from the type declarations). *)
From Verif Require Export Model.Mask Spec.Lanewise Base.Vec.

(** [mask_rel k w R m p]: the stored value [m] stands for the booleans p 0 .. p (R/w-1).
    - [KNull]: R/w bytes, each 0 or 1;
    - [KVec]: an R-bit vector whose lanes are all-ones or zero;
    - [KBits]: one bit per lane; bits above the lanes are unspecified. *)
Definition mask_rel (k : mkind) (w R m : Z) (p : Z -> bool) : Prop :=
  match k with
  | KNull => m = pack 8 (8 * (R / w)) (fun i => Z.b2z (p i))
  | KVec => m = pack w R (fun i => tf w (p i))
  | KBits => 0 <= m /\ forall i, 0 <= i < R / w -> Z.testbit m i = p i
  end.

(** A mask of any length (one stored value per native register) standing for a list of
    booleans, lane 0 first. *)
Fixpoint masks_k (k : mkind) (w : Z) (s : rsz) (vm : vec) (bs : list bool) : Prop :=
  match vm with
  | [] => bs = []
  | m :: vm => exists p bs', mask_rel k w (rbits s) m p /\
      bs = map (fun i => p (Z.of_nat i)) (seq 0 (nl w (rbits s))) ++ bs' /\
      masks_k k w s vm bs'
  end.
Definition masks (A : arch) (w : ew) (s : rsz) := masks_k (mk_int A w s) (wb w) s.

(** [op] succeeds and yields the mask of [p], lane by lane. *)
Definition computesM2_k (k : mkind) (w : ew) (s : rsz) (op : vec -> vec -> res vec)
    (p : Z -> Z -> bool) : Prop :=
  forall va vb, wfv s va -> wfv s vb -> length va = length vb ->
  exists vm, op va vb = Ok vm /\ length vm = length va /\
    masks_k k (wb w) s vm (zipw p (lanes (wb w) s va) (lanes (wb w) s vb)).
Definition computesM2 (A : arch) (w : ew) (s : rsz) := computesM2_k (mk_int A w s) w s.
Definition computesM1_k (k : mkind) (w : ew) (s : rsz) (op : vec -> res vec) (p : Z -> bool) : Prop :=
  forall va, wfv s va ->
  exists vm, op va = Ok vm /\ length vm = length va /\
    masks_k k (wb w) s vm (map p (lanes (wb w) s va)).
Definition computesVM_k (k : mkind) (w : ew) (s : rsz) (op : vec -> vec -> res vec)
    (f : Z -> bool -> Z) : Prop :=
  forall va vm bs, wfv s va -> masks_k k (wb w) s vm bs -> length va = length vm ->
  exists vr, op va vm = Ok vr /\ wfv s vr /\ length vr = length va /\
    lanes (wb w) s vr = zipw f (lanes (wb w) s va) bs.
Definition computesVM (A : arch) (w : ew) (s : rsz) := computesVM_k (mk_int A w s) w s.
Definition computesMM1_k (k : mkind) (w : ew) (s : rsz) (op : vec -> res vec) (f : bool -> bool) : Prop :=
  forall vm bs, masks_k k (wb w) s vm bs ->
  exists vr, op vm = Ok vr /\ length vr = length vm /\ masks_k k (wb w) s vr (map f bs).
Definition computesMM1 (A : arch) (w : ew) (s : rsz) := computesMM1_k (mk_int A w s) w s.
Definition computesMM2_k (k : mkind) (w : ew) (s : rsz) (op : vec -> vec -> res vec)
    (f : bool -> bool -> bool) : Prop :=
  forall vm vn bs cs, masks_k k (wb w) s vm bs -> masks_k k (wb w) s vn cs -> length vm = length vn ->
  exists vr, op vm vn = Ok vr /\ length vr = length vm /\ masks_k k (wb w) s vr (zipw f bs cs).
Definition computesMM2 (A : arch) (w : ew) (s : rsz) := computesMM2_k (mk_int A w s) w s.
Definition computesMMM_k (k : mkind) (w : ew) (s : rsz) (op : vec -> vec -> vec -> res vec)
    (f : bool -> bool -> bool -> bool) : Prop :=
  forall va vb vm xs ys bs, masks_k k (wb w) s va xs -> masks_k k (wb w) s vb ys -> masks_k k (wb w) s vm bs ->
  length va = length vb -> length va = length vm ->
  exists vr, op va vb vm = Ok vr /\ length vr = length va /\ masks_k k (wb w) s vr (zipw3 f xs ys bs).
Definition computesMMM (A : arch) (w : ew) (s : rsz) := computesMMM_k (mk_int A w s) w s.
Definition computesVVM_k (k : mkind) (w : ew) (s : rsz) (op : vec -> vec -> vec -> res vec)
    (f : Z -> Z -> bool -> Z) : Prop :=
  forall va vb vm bs, wfv s va -> wfv s vb -> masks_k k (wb w) s vm bs ->
  length va = length vb -> length va = length vm ->
  exists vr, op va vb vm = Ok vr /\ wfv s vr /\ length vr = length va /\
    lanes (wb w) s vr = zipw3 f (lanes (wb w) s va) (lanes (wb w) s vb) bs.
Definition computesVVM (A : arch) (w : ew) (s : rsz) := computesVVM_k (mk_int A w s) w s.
(** mask -> vector: all-ones lanes where true, zero elsewhere *)
Definition computesU_k (k : mkind) (w : ew) (s : rsz) (op : vec -> res vec) : Prop :=
  forall vm bs, masks_k k (wb w) s vm bs ->
  exists vr, op vm = Ok vr /\ wfv s vr /\ length vr = length vm /\
    lanes (wb w) s vr = map (fun b : bool => if b then 2 ^ wb w - 1 else 0) bs.
Definition computesU (A : arch) (w : ew) (s : rsz) := computesU_k (mk_int A w s) w s.
(** vector of all-ones/zero lanes -> mask *)
Definition computesTM_k (k : mkind) (w : ew) (s : rsz) (op : vec -> res vec) : Prop :=
  forall va bs, wfv s va ->
  lanes (wb w) s va = map (fun b : bool => if b then 2 ^ wb w - 1 else 0) bs ->
  exists vm, op va = Ok vm /\ length vm = length va /\ masks_k k (wb w) s vm bs.
Definition computesTM (A : arch) (w : ew) (s : rsz) := computesTM_k (mk_int A w s) w s.
(** three vectors, the third with all-ones or zero lanes *)
Definition computesVVT (w : Z) (s : rsz) (op : vec -> vec -> vec -> res vec) : Prop :=
  forall va vb vm, wfv s va -> wfv s vb -> wfv s vm -> length va = length vb -> length va = length vm ->
  Forall (fun m => m = 0 \/ m = 2 ^ w - 1) (lanes w s vm) ->
  exists vr, op va vb vm = Ok vr /\ wfv s vr /\ length vr = length va /\
    lanes w s vr = zipw3 (fun x y m => if m =? 0 then y else x) (lanes w s va) (lanes w s vb) (lanes w s vm).
