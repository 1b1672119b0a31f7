(** Types of expressions: detail/get_expr.h, detail/get_expr_blend.h,
    core/detail/get_expr_bitwise.h, core/detail/get_expr_uint.h, types/tag.h. *)
From Verif Require Export Spec.Types.
Open Scope Z_scope.

(** types/tag.h:72-80 *)
Definition TAG_MASK_INT := 1. Definition TAG_MASK_FLOAT := 2. Definition TAG_INT := 3.
Definition TAG_UINT := 4. Definition TAG_FLOAT := 5.
(** V::type_tag, V::size_tag (types/traits of the vector classes) *)
Definition type_tag (v : vtype) : Z :=
  match knd v with MaskInt => TAG_MASK_INT | MaskFloat => TAG_MASK_FLOAT | Int => TAG_INT
  | UInt => TAG_UINT | Float => TAG_FLOAT end.
Definition size_tag (v : vtype) : Z :=
  match wid v with B8 => 10 | B16 => 20 | B32 => 30 | B64 => 40 end.

(** get_expr.h:37-53 type_of_tag<Tag, B>; None: no such specialisation (compile error) *)
Definition type_of_tag (t B : Z) : option vtype :=
  if t =? 13 then Some (VT Int B8 B) else if t =? 23 then Some (VT Int B16 (B / 2))
  else if t =? 33 then Some (VT Int B32 (B / 4)) else if t =? 43 then Some (VT Int B64 (B / 8))
  else if t =? 14 then Some (VT UInt B8 B) else if t =? 24 then Some (VT UInt B16 (B / 2))
  else if t =? 34 then Some (VT UInt B32 (B / 4)) else if t =? 44 then Some (VT UInt B64 (B / 8))
  else if t =? 11 then Some (VT MaskInt B8 B) else if t =? 21 then Some (VT MaskInt B16 (B / 2))
  else if t =? 31 then Some (VT MaskInt B32 (B / 4)) else if t =? 41 then Some (VT MaskInt B64 (B / 8))
  else if t =? 35 then Some (VT Float B32 (B / 4)) else if t =? 45 then Some (VT Float B64 (B / 8))
  else if t =? 32 then Some (VT MaskFloat B32 (B / 4)) else if t =? 42 then Some (VT MaskFloat B64 (B / 8))
  else None.

Definition gt_max (a b : Z) : Z := if b <? a then a else b.      (* a > b ? a : b *)
Definition tag_mask (t : Z) : bool := (t =? TAG_MASK_FLOAT) || (t =? TAG_MASK_INT).

(** get_expr.h:208-236 *)
Definition get_expr (v : vtype) := type_of_tag (type_tag v + size_tag v) (bytes v).
Definition get_expr_nomask (v : vtype) :=
  type_of_tag ((if type_tag v =? TAG_MASK_FLOAT then TAG_FLOAT
                else if type_tag v =? TAG_MASK_INT then TAG_UINT else type_tag v) + size_tag v) (bytes v).
Definition get_expr_nosign (v : vtype) :=
  type_of_tag ((if type_tag v =? TAG_INT then TAG_UINT else type_tag v) + size_tag v) (bytes v).
Definition get_expr_nomask_nosign (v : vtype) :=
  type_of_tag ((if type_tag v =? TAG_MASK_FLOAT then TAG_FLOAT
                else if type_tag v =? TAG_INT then TAG_UINT
                else if type_tag v =? TAG_MASK_INT then TAG_UINT else type_tag v) + size_tag v) (bytes v).
(** get_expr.h:248-258 *)
Definition get_expr2 (v1 v2 : vtype) :=
  let is_mask_op := tag_mask (type_tag v1) && tag_mask (type_tag v2) in
  let st := gt_max (size_tag v1) (size_tag v2) in
  let tt := if is_mask_op && negb (size_tag v1 =? size_tag v2) then TAG_UINT
            else gt_max (type_tag v1) (type_tag v2) in
  type_of_tag (tt + st) (bytes v1).
(** get_expr.h:262-272 *)
Definition get_expr2_nomask (v1 v2 : vtype) :=
  let t1 := gt_max (type_tag v1) (type_tag v2) in
  let st := gt_max (size_tag v1) (size_tag v2) in
  let tt := if t1 =? TAG_MASK_FLOAT then TAG_FLOAT else if t1 =? TAG_MASK_INT then TAG_UINT else t1 in
  type_of_tag (tt + st) (bytes v1).
(** get_expr.h:274-283 *)
Definition get_expr2_nosign (v1 v2 : vtype) :=
  let t1 := gt_max (type_tag v1) (type_tag v2) in
  let st := gt_max (size_tag v1) (size_tag v2) in
  let tt := if t1 =? TAG_INT then TAG_UINT else t1 in
  type_of_tag (tt + st) (bytes v1).
(** get_expr.h:286-297 *)
Definition get_expr2_nomask_nosign (v1 v2 : vtype) :=
  let t1 := gt_max (type_tag v1) (type_tag v2) in
  let st := gt_max (size_tag v1) (size_tag v2) in
  let tt := if tag_mask t1 && negb (size_tag v1 =? size_tag v2) then TAG_UINT
            else if t1 =? TAG_INT then TAG_UINT else t1 in
  type_of_tag (tt + st) (bytes v1).

(** core/detail/get_expr_bitwise.h:59-96: result type and the two argument types *)
Definition get_expr_bitwise2_and (v1 v2 : vtype) : option vtype * option vtype * option vtype :=
  let st := gt_max (size_tag v1) (size_tag v2) in
  let t1 := gt_max (type_tag v1) (type_tag v2) in
  let tt := if tag_mask t1 && negb (size_tag v1 =? size_tag v2) then TAG_UINT else t1 in
  let a1 := if tt =? TAG_INT then TAG_UINT else tt in
  let is_v1_float := (tt =? TAG_FLOAT) || (tt =? TAG_MASK_FLOAT) in
  let a2 := if negb (tag_mask (type_tag v2)) then a1
            else if is_v1_float then TAG_MASK_FLOAT else TAG_MASK_INT in
  (type_of_tag (tt + st) (bytes v1), type_of_tag (a1 + st) (bytes v1), type_of_tag (a2 + st) (bytes v1)).
(** core/detail/get_expr_bitwise.h:124-150 *)
Definition get_expr_bit_or (v1 v2 : vtype) : option vtype * option vtype * option vtype :=
  let st := gt_max (size_tag v1) (size_tag v2) in
  let t1 := gt_max (type_tag v1) (type_tag v2) in
  let tt := if tag_mask t1 && negb (size_tag v1 =? size_tag v2) then TAG_UINT else t1 in
  let a := if tt =? TAG_INT then TAG_UINT else tt in
  (type_of_tag (tt + st) (bytes v1), type_of_tag (a + st) (bytes v1), type_of_tag (a + st) (bytes v1)).

(** An operand: a vector type or a C++ arithmetic type; [expr2_maybe_scalar_tags]
    (get_expr.h:55-206): a scalar takes the tags of the vector *)
Definition scalar_as (v : vtype) : vtype := v.
(** core/detail/get_expr_uint.h:34-186 expr2_uint_maybe_scalar_tags: a scalar counts as a
    signed vector of the other operand's shape *)
Definition scalar_as_int (v : vtype) : vtype := VT Int (wid v) (len v).
(** core/detail/get_expr_uint.h:188-217 *)
Definition get_expr_uint (v1 v2 : vtype) : option vtype * option vtype * option vtype :=
  let st := size_tag v1 in
  let t1 := gt_max (type_tag v1) (type_tag v2) in
  let tt := if t1 =? TAG_MASK_INT then TAG_UINT else t1 in
  (type_of_tag (tt + st) (bytes v1), type_of_tag (TAG_UINT + st) (bytes v1), type_of_tag (TAG_UINT + st) (bytes v1)).

(** detail/get_expr_blend.h:62-110: result, type of the first two, type of the third *)
Definition get_expr_blend (v1 v2 v3 : vtype) : option vtype * option vtype * option vtype :=
  let st1 := gt_max (size_tag v1) (size_tag v2) in
  let st := gt_max st1 (size_tag v3) in
  let t1 := gt_max (type_tag v1) (type_tag v2) in
  let t2 := if tag_mask t1 && negb (size_tag v1 =? size_tag v2) then TAG_UINT else t1 in
  let t3 := gt_max t2 (type_tag v3) in
  let tt := if tag_mask t3 && negb (size_tag v3 =? st1) then TAG_UINT else t3 in
  let v12 := if tt =? TAG_INT then TAG_UINT else tt in
  let is_v12_float := (v12 =? TAG_FLOAT) || (v12 =? TAG_MASK_FLOAT) in
  let v3t := if negb (tag_mask (type_tag v3)) || negb (st =? size_tag v3) then v12
             else if is_v12_float then TAG_MASK_FLOAT else TAG_MASK_INT in
  (type_of_tag (tt + st) (bytes v1), type_of_tag (v12 + st) (bytes v1), type_of_tag (v3t + st) (bytes v1)).
