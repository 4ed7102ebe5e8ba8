(** * Text: type constants, names, error codes and the text of a date (model). *)
From Coq Require Import Ascii String.
From Verif Require Import Base Tag Values.
Open Scope Z_scope.

(** characters are numbers of ASCII *)
Fixpoint codes (s : string) : list Z :=
  match s with EmptyString => [] | String c t => Z.of_N (N_of_ascii c) :: codes t end.

(** ** Numbers as printf of libc prints them (libc is not part of /repo: this is the
    behaviour the C standard gives to %i and %0kd for an int) *)
Fixpoint digits (fuel : nat) (n : Z) : list Z :=
  match fuel with
  | O => []
  | S fuel => if n <? 10 then [48 + n] else digits fuel (n / 10) ++ [48 + n mod 10]
  end.
Definition print_i (n : Z) : list Z := if n <? 0 then 45 :: digits 10 (- n) else digits 10 n.
Definition print_0d (width : nat) (n : Z) : list Z :=
  let d := digits 10 n in repeat 48 (width - List.length d) ++ d.

(** ** Types of the C interface.  src: fast_positive/tuples/legacy.h:199-252;
    legacy_compat.h:23-25 (genus2legacy) *)
Definition legacy_tag (g column : Z) : Z := make_tag g column true true false.
Definition fptu_null : Z := 2 ^ 32 - 1.
Definition fptu_uint16 : Z := legacy_tag g_u16 0.
Definition fptu_bool : Z := legacy_tag g_i8 0.             (* genus::boolean = i8 *)
Definition fptu_int32 : Z := legacy_tag g_i32 0.
Definition fptu_uint32 : Z := legacy_tag g_u32 0.
Definition fptu_fp32 : Z := legacy_tag g_f32 0.
Definition fptu_int64 : Z := legacy_tag g_i64 0.
Definition fptu_uint64 : Z := legacy_tag g_u64 0.
Definition fptu_fp64 : Z := legacy_tag g_f64 0.
Definition fptu_datetime : Z := legacy_tag g_t64 0.
Definition fptu_96 : Z := legacy_tag g_bin96 0.
Definition fptu_128 : Z := legacy_tag g_bin128 0.
Definition fptu_160 : Z := legacy_tag g_bin160 0.
Definition fptu_256 : Z := legacy_tag g_bin256 0.
Definition fptu_ip : Z := legacy_tag g_ip 0.
Definition fptu_mac : Z := legacy_tag g_mac 0.
Definition fptu_ipnet : Z := legacy_tag g_ipnet 0.
Definition fptu_cstr : Z := legacy_tag g_text 0.
Definition fptu_opaque : Z := legacy_tag g_varbin 0.
Definition fptu_nested : Z := legacy_tag g_nested 0.

(** ** Tag helpers.  [fptu_tag_t] is uint_fast16_t: [w] = 16, 32 or 64 bits wide, by platform.
    src: legacy_compat.h:106-125, compat_common.cxx:229-247, legacy.h:271-277 *)
Definition fast16 (w x : Z) : Z := x mod 2 ^ w.
Definition fptu_get_colnum (tag : Z) : Z := tag2id (u32 tag).
Definition fptu_get_type (tag : Z) : Z := legacy_tag (tag2genus (u32 tag)) 0.
Definition fptu_make_tag (w column type : Z) : Z := fast16 w (legacy_tag (tag2genus type) column).
Definition fptu_tag_is_fixedsize (tag : Z) : bool := is_fixed_size (u32 tag).
Definition fptu_tag_is_deleted (tag : Z) : bool := tag2genus (u32 tag) =? g_hole.

(** ** Names *)
(** src: src/misc.cxx:211-247 (std::to_string(genus)); outside of 0..31 the array is overrun, here [] *)
Definition typenames : list string :=
  ["text"; "varbin"; "nested"; "property"; "i8"; "u8"; "i16"; "u16"; "i32"; "u32"; "f32"; "t32";
   "i64"; "u64"; "f64"; "d64"; "t64"; "bin96"; "bin128"; "bin160"; "bin192"; "bin224"; "bin256";
   "bin320"; "bin384"; "bin512"; "app_reserved_64"; "app_reserved_128"; "mac"; "ip"; "ipnet"; "hole"]%string.
Definition genus_name (g : Z) : list Z := codes (nth (Z.to_nat g) typenames EmptyString).

(** src: src/compat_common.cxx:186-224: the cases of the switch; the default prints into a buffer of
    32 bytes (longer text would be cut, snprintf) *)
Definition type_cases : list (Z * string) :=
  [(fptu_uint16, "uint16"); (fptu_int32, "int32"); (fptu_uint32, "uint32"); (fptu_fp32, "fp32");
   (fptu_int64, "int64"); (fptu_uint64, "uint64"); (fptu_fp64, "fp64"); (fptu_datetime, "datetime");
   (fptu_96, "b96"); (fptu_128, "b128"); (fptu_160, "b160"); (fptu_256, "b256"); (fptu_cstr, "cstr");
   (fptu_opaque, "opaque"); (fptu_nested, "nested")]%string.
Fixpoint switch (l : list (Z * string)) (x : Z) (default : list Z) : list Z :=
  match l with
  | [] => default
  | (y, s) :: l => if x =? y then codes s else switch l x default
  end.
Definition snprintf (size : nat) (text : list Z) : list Z := firstn (size - 1) text.
Definition fptu_type_name (type : Z) : list Z :=
  switch type_cases type (snprintf 32 (codes "invalid(fptu_type)" ++ print_i (sgn 32 type))).

(** src: legacy.h:718-726, src/debug.cxx:290-309 *)
Definition fptu_ic : Z := 1. Definition fptu_eq : Z := 2. Definition fptu_lt : Z := 4. Definition fptu_gt : Z := 8.
Definition fptu_ne : Z := Z.lor (Z.lor fptu_lt fptu_gt) fptu_ic.
Definition fptu_le : Z := Z.lor fptu_lt fptu_eq.
Definition fptu_ge : Z := Z.lor fptu_gt fptu_eq.
Definition lge_cases : list (Z * string) :=
  [(fptu_ic, "><"); (fptu_eq, "=="); (fptu_lt, "<"); (fptu_gt, ">"); (fptu_ne, "!="); (fptu_le, "<="); (fptu_ge, ">=")]%string.
Definition lge_name (x : Z) : list Z := switch lge_cases x (codes "invalid(fptu_lge)" ++ print_i x).

(** ** Errors *)
(** Linux numbers.  src: legacy.h:113-131 *)
Definition FPTU_OK : Z := 0.
Definition FPTU_ENOFIELD : Z := 126.    (* ENOKEY *)
Definition FPTU_EINVAL : Z := 22.
Definition FPTU_ENOSPACE : Z := 105.    (* ENOBUFS *)
Definition FPTU_ENOMEM : Z := 12.
(** src: src/debug.cxx:35-48 *)
Definition error_cases : list (Z * string) :=
  [(FPTU_OK, "FPTU: Success"); (FPTU_ENOFIELD, "FPTU: No such field (ENOENT)");
   (FPTU_EINVAL, "FPTU: Invalid argument (EINVAL)"); (FPTU_ENOSPACE, "FPTU: No space left in tuple (ENOSPC)")]%string.
Definition error_text (e : Z) : list Z := switch error_cases e (codes "invalid(fptu_error)" ++ print_i e).

(** The classes of exceptions the library throws and those of libstdc++ it may let through.
    src: fast_positive/tuples/details/exceptions.h:80-173 *)
Inductive exn :=
| e_bug | e_bad_tuple_ro | e_bad_tuple_rw | e_insufficient_space
| e_invalid_argument | e_invalid_allot | e_invalid_schema | e_tuple_hollow | e_field_absent | e_logic_error
| e_type_mismatch | e_schema_mismatch | e_index_corrupted | e_collection_unallowed | e_collection_required
| e_value_is_denil | e_value_too_long | e_tuple_too_large | e_value_out_of_range | e_managed_buffer_required
| e_tuple_overflow | e_schema_definition_error | e_schema_no_such_field
| std_bad_alloc | std_bad_array_new_length | std_length_error | std_system_error.
(** the class is that class or derived from it: only what the mapping below may care about.
    src: exceptions.h:134-160; std::bad_array_new_length is derived from std::bad_alloc *)
Definition is_a_bad_alloc (e : exn) : bool :=
  match e with e_insufficient_space | std_bad_alloc | std_bad_array_new_length => true | _ => false end.
(** src: compat_common.cxx:34-48: typeid(e) is compared, i.e. the exact class *)
Definition error_of (e : exn) : Z :=
  match e with
  | e_insufficient_space => FPTU_ENOSPACE
  | std_bad_alloc => FPTU_ENOMEM
  | e_field_absent => FPTU_ENOFIELD
  | _ => FPTU_EINVAL
  end.
(** The last error of the thread.  src: compat_common.cxx:21-56 *)
Record tls := mkTls { last_code : Z; last_msg : list Z }.
Definition fptu_clear_error : tls := mkTls FPTU_OK [].
Definition set_error (code : Z) (msg : list Z) : tls := mkTls code msg.
Definition set_error_exn (e : exn) (what : list Z) : tls := mkTls (error_of e) what.

(** Calls.  [body]: the value the C++ function returns or what it throws.  [err]: the integer the
    error pointer points at, [None] for a null pointer.  The guard: on exit *error := FPTU_OK unless fed.
    src: legacy_compat.h:60-84 (error_guard), compat_ro.cxx:75-118, compat_field.cxx:57-100 *)
Definition attempt (A : Type) : Type := A + (exn * list Z).
Definition guarded {A} (denil : A) (body : attempt A) (err : option Z) (t : tls) : A * option Z * tls :=
  match body with
  | inl v => (v, option_map (fun _ => FPTU_OK) err, t)
  | inr (e, what) => (denil, option_map (fun _ => error_of e) err, set_error_exn e what)
  end.
(** src: compat_rw.cxx:55-66, 251-518: return fptu_set_error(e).first / FPTU_OK *)
Definition returning (body : attempt unit) (t : tls) : Z * tls :=
  match body with
  | inl _ => (FPTU_OK, t)
  | inr (e, what) => (error_of e, set_error_exn e what)
  end.
(** src: compat_ro.cxx:125-134; [field]: [None] no such field, else what fptu_field_cstr makes of it
    (compat_field.cxx:122-137: an exception ends as a null pointer) *)
Definition get_cstr (field : option (attempt (option (list Z)))) (err : option Z) (t : tls) : option (list Z) * option Z * tls :=
  match field with
  | Some (inl v) => (v, err, t)
  | Some (inr (e, what)) => (None, err, set_error_exn e what)
  | None => (Some [], option_map (fun _ => FPTU_ENOFIELD) err, set_error FPTU_ENOFIELD (codes "fptu: no such field"))
  end.

(** ** The text of a date *)
(** printf("%.9f", fractional * 2^-32): the exact value (a double holds it exactly, std::ldexp) is
    rounded to nine digits, a tie to the even one, as IEEE 754 and glibc do.
    src: src/debug.cxx:313-316, datetime.h:163-165 *)
Definition nano (f : Z) : Z :=
  let q := f * 10 ^ 9 / 2 ^ 32 in let r := f * 10 ^ 9 mod 2 ^ 32 in
  if r <? 2 ^ 31 then q else if r =? 2 ^ 31 then (if Z.even q then q else q + 1) else q + 1.
Fixpoint digits_fixed (k : nat) (n : Z) : list Z :=
  match k with O => [] | S k => digits_fixed k (n / 10) ++ [48 + n mod 10] end.
Definition print_9f (f : Z) : list Z :=
  [48 + nano f / 10 ^ 9] ++ [46] ++ digits_fixed 9 (nano f mod 10 ^ 9).
(** gmtime_r of libc: the proleptic Gregorian calendar, no leap seconds; here by counting years and
    months off.  src: src/debug.cxx:319-328 *)
Definition leap (y : Z) : bool := ((y mod 4 =? 0) && negb (y mod 100 =? 0)) || (y mod 400 =? 0).
Definition year_days (y : Z) : Z := if leap y then 366 else 365.
Definition month_days (y m : Z) : Z :=
  match m with
  | 1 => if leap y then 29 else 28
  | 3 | 5 | 8 | 10 => 30
  | _ => 31
  end.
Fixpoint count_years (fuel : nat) (y d : Z) : Z * Z :=
  match fuel with
  | O => (y, d)
  | S fuel => if d <? year_days y then (y, d) else count_years fuel (y + 1) (d - year_days y)
  end.
Fixpoint count_months (fuel : nat) (y m d : Z) : Z * Z :=
  match fuel with
  | O => (m, d)
  | S fuel => if d <? month_days y m then (m, d) else count_months fuel y (m + 1) (d - month_days y m)
  end.
Record tm := mkTm { tm_year : Z; tm_mon : Z; tm_mday : Z; tm_hour : Z; tm_min : Z; tm_sec : Z }.
Definition gmtime (sec : Z) : tm :=
  let '(y, d) := count_years 400 1970 (sec / 86400) in
  let '(m, d) := count_months 11 y 0 d in
  let r := sec mod 86400 in
  mkTm (y - 1900) m (d + 1) (r / 3600) (r / 60 mod 60) (r mod 60).
(** src: src/debug.cxx:311-341 *)
Definition datetime_text (t : Z) : list Z :=
  let fraction := print_9f (fractional t) in
  let sec := utc_seconds t + hd 48 fraction - 48 in
  let u := gmtime sec in
  print_0d 4 (tm_year u + 1900) ++ [45] ++ print_0d 2 (tm_mon u + 1) ++ [45] ++ print_0d 2 (tm_mday u) ++ [90]
  ++ print_0d 2 (tm_hour u) ++ [58] ++ print_0d 2 (tm_min u) ++ [58] ++ print_0d 2 (tm_sec u)
  ++ skipn 1 fraction.
