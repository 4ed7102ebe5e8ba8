(** * D2a: shortest-form printing of binary64 numbers (model).

    src: fast_positive/erthink/erthink_d2a.h (whole file but [fixedpoint], [middle] and
    [fractional_printer]); the multiplication, the leading-zero count and the integer printing
    it uses are those of Erthink.v.

    A double is given by its 64 bits.  Asserts are not executed (release build).  [None] is
    undefined behaviour: a table read out of its bounds, a character taken back from an empty
    buffer, or a loop that does not come to its end within the fuel given to it.
    Characters are collected in a list, the last one first, instead of a buffer; the number of
    them is the number of bytes of the buffer in use.  [ERTHINK_D2A_AVOID_MUL] is 0. *)
From Verif Require Import Base Erthink.

(** ** Helpers *)
(** src: erthink_d2a.h:85-106 *)
Definition dec_digits (n : Z) : Z :=
  if n <? 10 ^ 5 then
    if n <? 10 ^ 1 then 1 else if n <? 10 ^ 2 then 2 else if n <? 10 ^ 3 then 3
    else if n <? 10 ^ 4 then 4 else 5
  else if n <? 10 ^ 6 then 6 else if n <? 10 ^ 7 then 7 else if n <? 10 ^ 8 then 8
  else if n <? 10 ^ 9 then 9 else 10.
(** src: erthink_d2a.h:108-118.  The table of the 20 powers of ten that fit in 64 bits. *)
Definition dec_power (n : Z) : option Z := if (0 <=? n) && (n <? 20) then Some (10 ^ n) else None.

(** ** Do-it-yourself floating point: f * 2^e *)
(** src: erthink_d2a.h:131-147 *)
Definition exponent_mask : Z := 0x7FF0000000000000.
Definition mantissa_mask : Z := 0x000FFFFFFFFFFFFF.
Definition implicit_lead : Z := 0x0010000000000000.
Definition exponent_bias : Z := 0x3ff + 52.
(** src: erthink_d2a.h:156-165 *)
Definition diy_fp (i64 : Z) : Z * Z :=
  let exp_bits := Z.land i64 exponent_mask in
  let mantissa := Z.land i64 mantissa_mask in
  (mantissa + (if negb (exp_bits =? 0) then implicit_lead else 0),
   Z.shiftr exp_bits 52 - (if negb (exp_bits =? 0) then exponent_bias else exponent_bias - 1)).
(** The product with a factor: (f, e, bit 63 of the lower half).  src: erthink_d2a.h:196-201 *)
Definition scale (f e ff fe : Z) : Z * Z * Z :=
  let '(high, low) := mul_64x64_128 f ff in (high, e + (fe + 64), Z.shiftr low 63).

(** src: erthink_d2a.h:235-244 *)
Definition power10_exp2 : list Z := [
    (-1193); (-1166); (-1140); (-1113); (-1087); (-1060); (-1034); (-1007); (-980); (-954);
    (-927); (-901); (-874); (-847); (-821); (-794); (-768); (-741); (-715); (-688); (-661);
    (-635); (-608); (-582); (-555); (-529); (-502); (-475); (-449); (-422); (-396); (-369);
    (-343); (-316); (-289); (-263); (-236); (-210); (-183); (-157); (-130); (-103); (-77); (-50);
    (-24); 3; 30; 56; 83; 109; 136; 162; 189; 216; 242; 269; 295; 322; 348; 375; 402; 428; 455;
    481; 508; 534; 561; 588; 614; 641; 667; 694; 720; 747; 774; 800; 827; 853; 880; 907; 933;
    960; 986; 1013; 1039; 1066].
(** src: erthink_d2a.h:246-289 *)
Definition power10_mas : list Z := [
    0xBAAEE17FA23EBF76; 0x8B16FB203055AC76; 0xCF42894A5DCE35EA; 0x9A6BB0AA55653B2D;
    0xE61ACF033D1A45DF; 0xAB70FE17C79AC6CA; 0xFF77B1FCBEBCDC4F; 0xBE5691EF416BD60C;
    0x8DD01FAD907FFC3C; 0xD3515C2831559A83; 0x9D71AC8FADA6C9B5; 0xEA9C227723EE8BCB;
    0xAECC49914078536D; 0x823C12795DB6CE57; 0xC21094364DFB5637; 0x9096EA6F3848984F;
    0xD77485CB25823AC7; 0xA086CFCD97BF97F4; 0xEF340A98172AACE5; 0xB23867FB2A35B28E;
    0x84C8D4DFD2C63F3B; 0xC5DD44271AD3CDBA; 0x936B9FCEBB25C996; 0xDBAC6C247D62A584;
    0xA3AB66580D5FDAF6; 0xF3E2F893DEC3F126; 0xB5B5ADA8AAFF80B8; 0x87625F056C7C4A8B;
    0xC9BCFF6034C13053; 0x964E858C91BA2655; 0xDFF9772470297EBD; 0xA6DFBD9FB8E5B88F;
    0xF8A95FCF88747D94; 0xB94470938FA89BCF; 0x8A08F0F8BF0F156B; 0xCDB02555653131B6;
    0x993FE2C6D07B7FAC; 0xE45C10C42A2B3B06; 0xAA242499697392D3; 0xFD87B5F28300CA0E;
    0xBCE5086492111AEB; 0x8CBCCC096F5088CC; 0xD1B71758E219652C; 0x9C40000000000000;
    0xE8D4A51000000000; 0xAD78EBC5AC620000; 0x813F3978F8940984; 0xC097CE7BC90715B3;
    0x8F7E32CE7BEA5C70; 0xD5D238A4ABE98068; 0x9F4F2726179A2245; 0xED63A231D4C4FB27;
    0xB0DE65388CC8ADA8; 0x83C7088E1AAB65DB; 0xC45D1DF942711D9A; 0x924D692CA61BE758;
    0xDA01EE641A708DEA; 0xA26DA3999AEF774A; 0xF209787BB47D6B85; 0xB454E4A179DD1877;
    0x865B86925B9BC5C2; 0xC83553C5C8965D3D; 0x952AB45CFA97A0B3; 0xDE469FBD99A05FE3;
    0xA59BC234DB398C25; 0xF6C69A72A3989F5C; 0xB7DCBF5354E9BECE; 0x88FCF317F22241E2;
    0xCC20CE9BD35C78A5; 0x98165AF37B2153DF; 0xE2A0B5DC971F303A; 0xA8D9D1535CE3B396;
    0xFB9B7CD9A4A7443C; 0xBB764C4CA7A44410; 0x8BAB8EEFB6409C1A; 0xD01FEF10A657842C;
    0x9B10A4E5E9913129; 0xE7109BFBA19C0C9D; 0xAC2820D9623BF429; 0x80444B5E7AA7CF85;
    0xBF21E44003ACDD2D; 0x8E679C2F5E44FF8F; 0xD433179D9C8CB841; 0x9E19DB92B4E31BA9;
    0xEB96BF6EBADF77D9; 0xAF87023B9BF0EE6B].
(** 2^52 / log2(10), divided as doubles and truncated.  src: erthink_d2a.h:220-222 *)
Definition log_factor : Z := 1355718576299647.
(** (f, e, decimal exponent).  src: erthink_d2a.h:213-293 *)
Definition cached_power (in_exp2 : Z) : option (Z * Z * Z) :=
  let exp2_rebased := -61 - in_exp2 in
  let scaled := exp2_rebased * log_factor + 348 * implicit_lead - 1 in
  let exp10_unbiased := u32 (Z.shiftr scaled 52) in
  let index := Z.to_nat (Z.shiftr exp10_unbiased 3) in
  match nth_error power10_mas index, nth_error power10_exp2 index with
  | Some f, Some e => Some (f, e, 340 - (exp10_unbiased - Z.land exp10_unbiased 7))
  | _, _ => None
  end.

(** ** Digits *)
(** [adjust_last_digit(-1)]: the last character minus one; a character that would fall below
    '1' is removed instead ([false]).  src: erthink_d2a.h:579-587 *)
Definition adjust_last_digit (ds : list Z) : option (bool * list Z) :=
  match ds with
  | [] => None
  | c :: ds => if c - 1 <? 49 then Some (false, ds) else Some (true, (c - 1) :: ds)
  end.
(** src: erthink_d2a.h:295-311 *)
Fixpoint adjust (fuel : nat) (delta rest ten_kappa upper : Z) (ds : list Z) (exp10 : Z) : option (list Z * Z) :=
  match fuel with
  | O => None
  | S fuel =>
    if (delta >=? u64 (ten_kappa + rest)) &&
       ((u64 (rest + ten_kappa) <? upper) ||
        ((rest <? upper) && (u64 (upper - rest) >=? u64 (rest + ten_kappa - upper)))) then
      match adjust_last_digit ds with
      | None => None
      | Some (false, ds) => Some (ds, exp10 + 1)
      | Some (true, ds) => adjust fuel delta (u64 (rest + ten_kappa)) ten_kappa upper ds exp10
      end
    else Some (ds, exp10)
  end.

(** [make_digits], src: erthink_d2a.h:313-476.  [shift] is the number of fractional bits, [gap]
    is top - value, [exp10] the incoming decimal exponent.  The digit printers always accept the
    next digit, so the exits on a refused digit are left out. *)
Section Digits.
Variables (accurate : bool) (shift gap exp10 : Z).
Definition digit_mask : Z := Z.shiftr (2 ^ 64 - 1) (64 - shift).
Definition finish (delta rest ten_kappa upper : Z) (ds : list Z) (exp10 : Z) : option (list Z * Z) :=
  if accurate then adjust 20 delta rest ten_kappa upper ds exp10 else Some (ds, exp10).
(** the label early_skip; early_last is the same after one more digit.  src: 369-377 *)
Definition early_skip (kappa delta tail : Z) (ds : list Z) : option (list Z * Z) :=
  match dec_power kappa with
  | None => None
  | Some p => finish delta tail (u64 (Z.shiftl p shift)) gap ds (exp10 + kappa)
  end.
Definition early_last (digit kappa delta tail : Z) (ds : list Z) : option (list Z * Z) :=
  early_skip kappa delta tail ((digit + 48) :: ds).
(** the label done: digits of the fraction.  src: 455-475 *)
Fixpoint fraction (fuel : nat) (digit kappa delta tail : Z) (ds : list Z) : option (list Z * Z) :=
  match fuel with
  | O => None
  | S fuel =>
    let ds := (digit + 48) :: ds in
    if tail >? delta then
      let tail := u64 (tail * 10) in
      fraction fuel (Z.shiftr tail shift) (kappa - 1) (u64 (delta * 10)) (Z.land tail digit_mask) ds
    else
      match dec_power (- kappa) with
      | None => None
      | Some p => finish delta tail (u64 (digit_mask + 1)) (u64 (gap * p)) ds (exp10 + kappa)
      end
  end.
(** the second loop: digits of the integer part, [kappa] of them are left.  src: 398-453 *)
Fixpoint integral (kappa : nat) (digit body delta tail : Z) (ds : list Z) : option (list Z * Z) :=
  let ds := (digit + 48) :: ds in
  match kappa with
  | O => None
  | S O => fraction 25 body 0 delta tail ds
  | S k =>
    let p := 10 ^ Z.of_nat k in
    let digit := body / p in
    let body := body mod p in
    let left := u64 (u64 (Z.shiftl body shift) + tail) in
    if left <? delta then
      if negb (digit =? 0) then early_last digit (Z.of_nat k) delta tail ds
      else early_skip (Z.of_nat k + 1) delta tail ds
    else integral k digit body delta tail ds
  end.
(** the integer part is zero: leading zeros of the fraction.  src: 379-394 *)
Fixpoint zeros (fuel : nat) (digit kappa delta tail : Z) (ds : list Z) : option (list Z * Z) :=
  match fuel with
  | O => None
  | S fuel =>
    if negb (digit =? 0) then fraction 25 digit kappa delta tail ds
    else
      let tail := u64 (tail * 10) in
      zeros fuel (Z.shiftr tail shift) (kappa - 1) (u64 (delta * 10)) (Z.land tail digit_mask) ds
  end.
(** the first loop: up to the first digit that is not zero.  src: 326-396 *)
Fixpoint leading (kappa : nat) (body delta tail : Z) : option (list Z * Z) :=
  match kappa with
  | O => None
  | S O => if tail <? delta then early_last body 0 delta tail [] else zeros 25 body 0 delta tail []
  | S k =>
    let p := 10 ^ Z.of_nat k in
    let digit := body / p in
    let body := body mod p in
    if digit =? 0 then leading k body delta tail else integral k digit body delta tail []
  end.
End Digits.
Definition make_digits (accurate : bool) (top delta exp10 value shift : Z) : option (list Z * Z) :=
  let body := Z.shiftr top shift in
  leading accurate shift (u64 (top - value)) exp10 (Z.to_nat (dec_digits (u32 body)))
    body delta (Z.land top (digit_mask shift)).

(** ** Conversion *)
(** What the printer is told to show. *)
Inductive shown := Nan | Inf | Zero | Ordinal (n : Z) | Decimal (ds : list Z) (exp10 : Z).
(** [takes_integers]: what the printer's [integer] method returns.
    src: erthink_d2a.h:478-522 *)
Definition convert (accurate takes_integers : bool) (f e : Z) : option shown :=
  if e =? 0x7ff - exponent_bias then Some (if negb (f - implicit_lead =? 0) then Nan else Inf)
  else if f =? 0 then Some Zero
  else
    let lead_zeros := fallback_clz64 f in
    if negb accurate && ((-52 <=? e) && (e <=? lead_zeros)) &&
       ((0 <=? e) || (u64 (Z.shiftl f (64 + e)) =? 0)) && takes_integers
    then Some (Ordinal (if e <? 0 then Z.shiftr f (- e) else u64 (Z.shiftl f e)))
    else
      let e := e - lead_zeros in
      let f := u64 (Z.shiftl f lead_zeros) in
      match cached_power e with
      | None => None
      | Some (ff, fe, exp10) =>
        let mojo := if f >? 0x80000000000007ff then 64 else 65 in
        let delta := Z.shiftr ff (mojo - lead_zeros) in
        let '(f, e, lsb) := scale f e ff fe in
        match make_digits accurate (u64 (f + Z.shiftr (u64 (delta + lsb - 1)) 1)) (u64 (delta - 2))
                          exp10 (if accurate then u64 (f + lsb) else f) (- e) with
        | None => None
        | Some (ds, exp10) => Some (Decimal ds exp10)
        end
      end.

(** ** The printer of [d2a] *)
(** the characters a formatting function of Erthink.v leaves in a blank buffer *)
Definition written (r : Z * cmem) : list Z := map (fun i => snd r (Z.of_nat i)) (seq 0 (Z.to_nat (fst r))).
(** src: erthink_d2a.h:589-597.  The exponent is far from the extremes of [int]. *)
Definition exponenta (value : Z) : list Z :=
  if negb (value =? 0) then
    101 :: (if value <? 0 then 45 else 43) :: written (dec3 (Z.abs value) 0 false (fun _ => 0))
  else [].
(** src: erthink_d2a.h:524-529 (convert), 531-603 (ieee754_default_printer), 727-745 (d2a) *)
Definition d2a (accurate : bool) (i64 : Z) : option (list Z) :=
  let '(f, e) := diy_fp i64 in
  let sign := if i64 >=? 2 ^ 63 then [45] else [] in
  match convert accurate true f e with
  | None => None
  | Some Nan => Some (sign ++ [110; 97; 110])
  | Some Inf => Some (sign ++ [105; 110; 102])
  | Some Zero => Some (sign ++ [48])
  | Some (Ordinal n) => Some (sign ++ written (u2a64 n 0 (fun _ => 0)))
  | Some (Decimal ds exp10) => Some (sign ++ rev ds ++ exponenta exp10)
  end.

(** ** The printer with a choice between the decimal and the exponential form *)
(** src: erthink_d2a.h:611 *)
Definition gap : Z := 16.
(** [zeros_with_dot], its first 18 bytes; zeros follow.  src: erthink_d2a.h:644-647 *)
Definition zeros_with_dot : list Z := repeat 48 16 ++ [46; 48] ++ repeat 0 14.
(** [shodan_printer::exponenta] with [min_exp4dec] and [max_exp4dec] as given and the digits
    already between [begin] and [end]: how far [begin] is moved back, and what is left between
    [begin] and [end].  [stale] is the byte the buffer holds right after the 16 bytes which the
    third branch copies.  The first branch moves 16 bytes, all that can follow the first of at
    most 17 digits; the second has the zeros of the 16 bytes copied before [begin].
    src: erthink_d2a.h:643-681 *)
Definition shodan_exponenta (min_exp max_exp : Z) (stale : Z) (digits : list Z) (exp : Z) : Z * list Z :=
  let ndigits := Z.of_nat (length digits) in
  let canon_exp := ndigits + exp - 1 in
  if (canon_exp >=? min_exp) && (canon_exp <=? max_exp) then
    if exp <? 0 then
      if canon_exp >=? 0 then
        let ptr := Z.to_nat (ndigits + exp) in
        (0, firstn ptr digits ++ [46] ++ firstn (Z.to_nat gap) (skipn ptr digits))
      else (1 - canon_exp, [48; 46] ++ repeat 48 (Z.to_nat (- canon_exp - 1)) ++ digits)
    else
      let copied := firstn (Z.to_nat gap) (skipn (Z.to_nat (gap - exp)) zeros_with_dot) ++ [stale] in
      (0, digits ++ firstn (Z.to_nat (exp + 2)) copied)
  else
    (* [end == begin] never holds once begin has been moved back: no '0' follows a lone dot *)
    match digits with
    | [] => (1, [])
    | d :: digits => (1, d :: 46 :: digits ++ exponenta canon_exp)
    end.
(** [shodan_printer] with [force_sign] false: the text, and the offset in the caller's buffer of
    the byte [finalize_and_get] stores the sign to, which happens for positive values too.
    src: erthink_d2a.h:605-641 *)
Definition shodan (accurate : bool) (min_exp max_exp : Z) (stale : Z) (i64 : Z) : option (list Z * Z) :=
  let '(f, e) := diy_fp i64 in
  let sign := if i64 >=? 2 ^ 63 then [45] else [] in
  match convert accurate false f e with
  | None => None
  | Some Nan => Some (sign ++ [110; 97; 110], gap - 1)
  | Some Inf => Some (sign ++ [105; 110; 102], gap - 1)
  | Some Zero => Some (sign ++ [48; 46; 48], gap - 1)
  | Some (Ordinal n) => None
  | Some (Decimal ds exp10) =>
    let '(back, text) := shodan_exponenta min_exp max_exp stale (rev ds) exp10 in
    Some (sign ++ text, gap - back - 1)
  end.
