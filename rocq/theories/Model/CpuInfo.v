(** CPU feature lists: dispatch/get_arch_linux_cpuinfo.h, dispatch/get_arch_string_list.h. *)
From Verif Require Export Model.Preproc.
Open Scope string_scope.

(** the a_* masks, get_arch_linux_cpuinfo.h:45-58 and get_arch_string_list.h:44-57, 74-76 *)
Definition a_sse2 := Arch SSE2.
Definition a_sse3 := Z.lor a_sse2 (Arch SSE3).
Definition a_ssse3 := Z.lor a_sse3 (Arch SSSE3).
Definition a_sse4_1 := Z.lor a_ssse3 (Arch SSE4_1).
Definition a_popcnt := Arch POPCNT.
Definition a_avx := Z.lor a_sse4_1 (Arch AVX).
Definition a_avx2 := Z.lor a_avx (Arch AVX2).
Definition a_fma3 := Z.lor a_sse3 (Arch FMA3).
Definition a_fma4 := Z.lor a_sse3 (Arch FMA4).
Definition a_xop := Z.lor a_sse3 (Arch XOP).
Definition a_avx512f := Z.lor a_avx2 (Arch AVX512F).
Definition a_avx512bw := Z.lor a_avx512f (Arch AVX512BW).
Definition a_avx512dq := Z.lor a_avx512f (Arch AVX512DQ).
Definition a_avx512vl := Z.lor a_avx512f (Arch AVX512VL).
Definition a_altivec := Arch ALTIVEC.
Definition a_vsx_206 := Z.lor a_altivec (Arch VSX_206).
Definition a_vsx_207 := Z.lor a_vsx_206 (Arch VSX_207).

(** which of the #if branches is compiled *)
Inductive platform := P_X86 | P_ARM32 | P_ARM64 | P_PPC | P_MIPS.

(** get_arch_linux_cpuinfo.h:36-77: line identifier and the [features] map (std::map,
    later assignments to the same key would win: all keys are distinct) *)
Definition cpuinfo_ident (p : platform) : string :=
  match p with P_ARM32 | P_ARM64 => "Features" ++ String "009" "" | _ => "flags" ++ String "009" "" end.
Definition cpuinfo_features (p : platform) : list (string * Z) :=
  match p with
  | P_ARM32 => [("neon", Z.lor (Arch NEON) (Arch NEON_FLT_SP))]
  | P_ARM64 => [("asimd", Z.lor (Arch NEON) (Arch NEON_FLT_SP))]
  | P_X86 =>
    [("sse2", a_sse2); ("pni", a_sse3); ("ssse3", a_ssse3); ("sse4_1", a_sse4_1); ("avx", a_avx);
     ("avx2", a_avx2); ("popcnt", a_popcnt); ("fma", a_fma3); ("fma4", a_fma4); ("xop", a_xop);
     ("avx512f", a_avx512f); ("avx512bw", a_avx512bw); ("avx512dq", a_avx512dq); ("avx512vl", a_avx512vl)]
  | _ => []
  end.
(** std::map::find *)
Fixpoint find (k : string) (m : list (string * Z)) : option Z :=
  match m with [] => None | (k', v) :: m => if String.eqb k k' then Some v else find k m end.

(** :86 `while (std::getline(in, line))`: the lines delivered.  getline stops at '\n' or
    at the end; an empty tail after the last '\n' is not delivered. *)
Fixpoint getlines_from (cur : string) (s : string) : list string :=
  match s with
  | EmptyString => match cur with EmptyString => [] | _ => [cur] end
  | String c s => if Ascii.eqb c "010" then cur :: getlines_from "" s
                  else getlines_from (cur ++ String c "") s
  end.
Definition getlines := getlines_from "".
(** :97-102 istream_iterator<std::string>: maximal runs of non-blank characters ("C" locale) *)
Definition isspace (c : ascii) : bool :=
  let n := nat_of_ascii c in (n =? 32)%nat || ((9 <=? n)%nat && (n <=? 13)%nat).
Fixpoint items_from (cur : string) (s : string) : list string :=
  match s with
  | EmptyString => match cur with EmptyString => [] | _ => [cur] end
  | String c s =>
    if isspace c then match cur with EmptyString => items_from "" s | _ => cur :: items_from "" s end
    else items_from (cur ++ String c "") s
  end.
Definition items := items_from "".
(** :88-97 length check, std::mismatch, rest of the line *)
Fixpoint strip (ident line : string) : option string :=
  match ident, line with
  | EmptyString, _ => Some line
  | String c ident, String d line => if Ascii.eqb c d then strip ident line else None
  | String _ _, EmptyString => None
  end.
(** :104-111 *)
Definition match_items (p : platform) (its : list string) (res : Z) : Z :=
  fold_left (fun res it => match find it (cpuinfo_features p) with Some v => Z.lor res v | None => res end) its res.
(** get_arch_linux_cpuinfo(), :29-115; [None] when /proc/cpuinfo cannot be opened *)
Definition get_arch_linux_cpuinfo (p : platform) (file : option string) : Z :=
  match p with
  | P_PPC | P_MIPS => 0
  | _ =>
    match file with
    | None => 0
    | Some text =>
      fold_left (fun res line =>
        match strip (cpuinfo_ident p) line with
        | None => res
        | Some rest => match_items p (items rest) res
        end) (getlines text) 0
    end
  end.

(** get_arch_string_list.h:35-85 *)
Definition list_features (p : platform) : list (string * Z) :=
  match p with
  | P_ARM32 => [("neon", Arch NEON); ("neonfltsp", Z.lor (Arch NEON) (Arch NEON_FLT_SP))]
  | P_ARM64 => [("neon", Z.lor (Arch NEON) (Arch NEON_FLT_SP));
                ("neonfltsp", Z.lor (Arch NEON) (Arch NEON_FLT_SP))]
  | P_X86 =>
    [("sse2", a_sse2); ("sse3", a_sse3); ("ssse3", a_ssse3); ("sse4p1", a_sse4_1);
     ("popcnt", a_popcnt); ("avx", a_avx); ("avx2", a_avx2); ("fma3", a_fma3); ("fma4", a_fma4);
     ("xop", a_xop); ("avx512f", a_avx512f); ("avx512bw", a_avx512bw); ("avx512dq", a_avx512dq);
     ("avx512vl", a_avx512vl)]
  | P_PPC => [("altivec", a_altivec); ("vsx_206", a_vsx_206); ("vsx_207", a_vsx_207)]
  | P_MIPS => [("msa", Arch MSA)]
  end.
(** get_arch_string_list(strings, count, prefix), :21-109; a null prefix is "" (:25-26).
    Simplification: the C strings are sequences of non-NUL characters. *)
Definition get_arch_string_list (p : platform) (strings : list string) (prefix : option string) : Z :=
  let prefix := match prefix with Some x => x | None => "" end in
  fold_left (fun res s =>
    if (String.length s <? String.length prefix)%nat then res            (* :93-94 *)
    else match strip prefix s with                                       (* :95-99 *)
         | None => res
         | Some s => fold_left (fun res f => if String.eqb s (fst f) then Z.lor res (snd f) else res)
                       (list_features p) res                             (* :102-105 *)
         end) strings 0%Z.
