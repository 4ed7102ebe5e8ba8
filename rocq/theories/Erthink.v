(** * Erthink: arithmetic helpers of the bundled erthink library (model).

    src: fast_positive/erthink/erthink_carryadd.h, erthink_mul.h, erthink_clz.h, erthink_bswap.h,
    erthink_misc.h, erthink_u2a.h.  The portable ("fallback") branches are modelled: they are
    what remains when the compiler has no intrinsic for the job. *)
From Verif Require Import Base.

(** ** Addition with carry.  Result: (carry out, sum) *)
(** src: erthink_carryadd.h:129-143 (last branch) *)
Definition add64carry_first (base addend : Z) : Z * Z :=
  let sum := u64 (base + addend) in (Z.b2z (sum <? addend), sum).
(** src: erthink_carryadd.h:145-157 (last branch) *)
Definition add64carry_next (carry base addend : Z) : Z * Z :=
  let sum := u64 (base + addend + carry) in
  (Z.b2z ((sum <? addend) || (negb (carry =? 0) && (sum =? addend))), sum).
(** src: erthink_carryadd.h:159-171 (last branch) *)
Definition add64carry_last (carry base addend : Z) : Z := u64 (base + addend + carry).

(** the 32-bit Windows variant, from 32-bit additions with carry.
    [addcarry32] is the intrinsic [_addcarry_u32].  src: erthink_carryadd.h:75-123 *)
Definition addcarry32 (carry a b : Z) : Z * Z := ((a + b + carry) / 2 ^ 32, (a + b + carry) mod 2 ^ 32).
Definition msvc32_add64carry_next (carry base addend : Z) : Z * Z :=
  let '(c1, lo) := addcarry32 carry (base mod 2 ^ 32) (addend mod 2 ^ 32) in
  let '(c2, hi) := addcarry32 c1 (base / 2 ^ 32) (addend / 2 ^ 32) in
  (c2, hi * 2 ^ 32 + lo).
Definition msvc32_add64carry_first (base addend : Z) : Z * Z := msvc32_add64carry_next 0 base addend.

(** ** 64x64 -> 128 bit multiplication.  Result: (high, low) *)
(** src: erthink_mul.h:62-64 *)
Definition mul_32x32_64 (a b : Z) : Z := u64 (a * b).
(** src: erthink_mul.h:83-93 *)
Definition mul_64x64_128 (a b : Z) : Z * Z :=
  let ll := mul_32x32_64 (u32 a) (u32 b) in
  let lh := mul_32x32_64 (u32 (Z.shiftr a 32)) (u32 b) in
  let hl := mul_32x32_64 (u32 a) (u32 (Z.shiftr b 32)) in
  let hh := mul_32x32_64 (u32 (Z.shiftr a 32)) (u32 (Z.shiftr b 32)) in
  let '(c1, low1) := add64carry_first ll (u64 (Z.shiftl lh 32)) in
  let high1 := add64carry_last c1 hh (Z.shiftr lh 32) in
  let '(c2, low2) := add64carry_first low1 (u64 (Z.shiftl hl 32)) in
  (add64carry_last c2 high1 (Z.shiftr hl 32), low2).

(** ** Number of leading zeros *)
Definition smear (s v : Z) : Z := Z.lor v (Z.shiftr v s).
(** src: erthink_clz.h:40-50 *)
Definition deBruijn_clz32 : list Z :=
  [31; 22; 30; 21; 18; 10; 29; 2;  20; 17; 15; 13; 9; 6;  28; 1;
   23; 19; 11; 3;  16; 14; 7;  24; 12; 4;  8;  25; 5; 26; 27; 0].
Definition fallback_clz32 (v : Z) : Z :=
  let v := smear 16 (smear 8 (smear 4 (smear 2 (smear 1 v)))) in
  nth (Z.to_nat (Z.shiftr (u32 (v * 0x07C4ACDD)) 27)) deBruijn_clz32 (-1).
(** src: erthink_clz.h:52-70 (64-bit branch) *)
Definition deBruijn_clz64 : list Z :=
  [63; 16; 62; 7;  15; 36; 61; 3;  6;  14; 22; 26; 35; 47; 60; 2;
   9;  5;  28; 11; 13; 21; 42; 19; 25; 31; 34; 40; 46; 52; 59; 1;
   17; 8;  37; 4;  23; 27; 48; 10; 29; 12; 43; 20; 32; 41; 53; 18;
   38; 24; 49; 30; 44; 33; 54; 39; 50; 45; 55; 51; 56; 57; 58; 0].
Definition fallback_clz64 (v : Z) : Z :=
  let v := smear 32 (smear 16 (smear 8 (smear 4 (smear 2 (smear 1 v))))) in
  nth (Z.to_nat (Z.shiftr (u64 (v * 0x03F79D71B4CB0A89)) 58)) deBruijn_clz64 (-1).
(** src: erthink_clz.h:53-55 (32-bit branch) *)
Definition fallback_clz64_arch32 (v : Z) : Z :=
  let hi := u32 (Z.shiftr v 32) in
  (if hi =? 0 then 32 else 0) + fallback_clz32 (if hi =? 0 then u32 v else hi).

(** ** Byte swapping *)
(** src: erthink_bswap.h:49-55 *)
Definition bswap64 (v : Z) : Z :=
  Z.lor (Z.lor (Z.lor (Z.lor (Z.lor (Z.lor (Z.lor
    (u64 (Z.shiftl v 56)) (Z.shiftr v 56))
    (Z.land (u64 (Z.shiftl v 40)) 0x00ff000000000000))
    (Z.land (u64 (Z.shiftl v 24)) 0x0000ff0000000000))
    (Z.land (u64 (Z.shiftl v 8))  0x000000ff00000000))
    (Z.land (Z.shiftr v 8)  0x00000000ff000000))
    (Z.land (Z.shiftr v 24) 0x0000000000ff0000))
    (Z.land (Z.shiftr v 40) 0x000000000000ff00).
(** src: erthink_bswap.h:69-71 *)
Definition bswap32 (v : Z) : Z :=
  Z.lor (Z.lor (Z.lor
    (u32 (Z.shiftl v 24)) (Z.shiftr v 24))
    (Z.land (u32 (Z.shiftl v 8)) 0x00ff0000))
    (Z.land (Z.shiftr v 8) 0x0000ff00).
(** src: erthink_bswap.h:85.  The line reads [return return v << 8 | v >> 8], which does not
    compile; the second [return] is ignored here. *)
Definition bswap16 (v : Z) : Z := u16 (Z.lor (Z.shiftl v 8) (Z.shiftr v 8)).

(** ** Integer to decimal *)
(** characters of the output buffer, by address *)
Definition cmem := Z -> Z.
Definition put (m : cmem) (p c : Z) : cmem := fun x => if x =? p then c else m x.
(** src: erthink_u2a.h:83-94 *)
Definition digits_00_99 : list Z := [
    48; 48; 48; 49; 48; 50; 48; 51; 48; 52; 48; 53; 48; 54; 48; 55; 48; 56; 48;
    57; 49; 48; 49; 49; 49; 50; 49; 51; 49; 52; 49; 53; 49; 54; 49; 55; 49; 56;
    49; 57; 50; 48; 50; 49; 50; 50; 50; 51; 50; 52; 50; 53; 50; 54; 50; 55; 50;
    56; 50; 57; 51; 48; 51; 49; 51; 50; 51; 51; 51; 52; 51; 53; 51; 54; 51; 55;
    51; 56; 51; 57; 52; 48; 52; 49; 52; 50; 52; 51; 52; 52; 52; 53; 52; 54; 52;
    55; 52; 56; 52; 57; 53; 48; 53; 49; 53; 50; 53; 51; 53; 52; 53; 53; 53; 54;
    53; 55; 53; 56; 53; 57; 54; 48; 54; 49; 54; 50; 54; 51; 54; 52; 54; 53; 54;
    54; 54; 55; 54; 56; 54; 57; 55; 48; 55; 49; 55; 50; 55; 51; 55; 52; 55; 53;
    55; 54; 55; 55; 55; 56; 55; 57; 56; 48; 56; 49; 56; 50; 56; 51; 56; 52; 56;
    53; 56; 54; 56; 55; 56; 56; 56; 57; 57; 48; 57; 49; 57; 50; 57; 51; 57; 52;
    57; 53; 57; 54; 57; 55; 57; 56; 57; 57].
Definition dig (i : Z) : Z := nth (Z.to_nat i) digits_00_99 (-1).
(** src: erthink_u2a.h:96-104 *)
Definition dec2 (v : Z) (p : Z) (force : bool) (m : cmem) : Z * cmem :=
  let m := put m p (dig (Z.shiftl v 1)) in
  let p := p + Z.b2z (force || (v >? 9)) in
  let m := put m p (dig (Z.shiftl v 1 + 1)) in
  (p + 1, m).
(** src: erthink_u2a.h:106-118 *)
Definition dec3 (v : Z) (p : Z) (force : bool) (m : cmem) : Z * cmem :=
  let hi := v / 10 in
  let lo := v mod 10 in
  let m := put m p (dig (Z.shiftl hi 1)) in
  let p := p + Z.b2z (force || (v >? 99)) in
  let m := put m p (dig (Z.shiftl hi 1 + 1)) in
  let p := p + Z.b2z (force || (v >? 9)) in
  let m := put m p (lo + 48) in
  (p + 1, m).
(** src: erthink_u2a.h:120-134 *)
Definition dec4 (v : Z) (p : Z) (force : bool) (m : cmem) : Z * cmem :=
  let hi := v / 100 in
  let lo := v mod 100 in
  let m := put m p (dig (Z.shiftl hi 1)) in
  let p := p + Z.b2z (force || (v >? 999)) in
  let m := put m p (dig (Z.shiftl hi 1 + 1)) in
  let p := p + Z.b2z (force || (v >? 99)) in
  let m := put m p (dig (Z.shiftl lo 1)) in
  let p := p + Z.b2z (force || (v >? 9)) in
  let m := put m p (dig (Z.shiftl lo 1 + 1)) in
  (p + 1, m).
(** src: erthink_u2a.h:138-158 *)
Definition u2a32 (u : Z) (p : Z) (m : cmem) : Z * cmem :=
  if u <? 10 ^ 4 then dec4 u p false m
  else
    let '(u, (p, m)) :=
      if u >=? 10 ^ 8 then
        let '(p, m) := dec2 (u / 10 ^ 8) p false m in
        let u := u mod 10 ^ 8 in
        let '(p, m) := dec4 (u / 10 ^ 4) p true m in
        (u mod 10 ^ 4, (p, m))
      else
        let '(p, m) := dec4 (u / 10 ^ 4) p false m in
        (u mod 10 ^ 4, (p, m)) in
    dec4 u p true m.
(** src: erthink_u2a.h:160-190 *)
Definition u2a64 (u : Z) (p : Z) (m : cmem) : Z * cmem :=
  if u =? u32 u then u2a32 (u32 u) p m
  else
    let '(u, (p, m)) :=
      if u >=? 10 ^ 12 then
        let '(u, force, (p, m)) :=
          if u >=? 10 ^ 16 then (u mod 10 ^ 16, true, dec4 (u32 (u / 10 ^ 16)) p false m)
          else (u, false, (p, m)) in
        let '(p, m) := dec4 (u32 (u / 10 ^ 12)) p force m in
        let u := u mod 10 ^ 12 in
        let '(p, m) := dec4 (u32 (u / 10 ^ 8)) p true m in
        (u mod 10 ^ 8, (p, m))
      else (u mod 10 ^ 8, dec4 (u32 (u / 10 ^ 8)) p false m) in
    let '(p, m) := dec4 (u32 u / 10000) p true m in
    dec4 (u32 u mod 10000) p true m.

(** Absolute value without branches, [w] bits.  [None] = signed overflow (undefined behaviour):
    the sum [value + expanded_sign] is computed in the signed type.
    src: erthink_misc.h:40-52 *)
Definition branchless_abs (w v : Z) : option (Z * Z) :=
  let sign := Z.shiftr v (w - 1) in
  let sum := v + sign in
  if (sum <? - 2 ^ (w - 1)) || (sum >=? 2 ^ (w - 1)) then None
  else Some (sign, Z.lxor sum sign mod 2 ^ w).
(** src: erthink_u2a.h:192-201 *)
Definition i2a32 (v : Z) (p : Z) (m : cmem) : option (Z * cmem) :=
  match branchless_abs 32 v with
  | None => None
  | Some (sign, a) => Some (u2a32 a (p + Z.land sign 1) (put m p 45))
  end.
(** src: erthink_u2a.h:203-213 *)
Definition i2a64 (v : Z) (p : Z) (m : cmem) : option (Z * cmem) :=
  match branchless_abs 64 v with
  | None => None
  | Some (sign, a) => Some (u2a64 a (p + Z.land sign 1) (put m p 45))
  end.
