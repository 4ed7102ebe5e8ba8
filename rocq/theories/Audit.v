(** * Audit: validation of serialised tuples (model).

    src: src/audit.cxx, fast_positive/tuples/details/audit.h, ro.h:515-580.

    The image is bytes of a total memory map at address [ptr]; addresses and sizes are in bytes,
    offsets inside the payload are in units of four bytes, as in the code.  Every function returns,
    beside its verdict, the list of memory ranges it has read ([trace] of Scan.v).  Release
    (NDEBUG) semantics: AUDIT_FAILURE(x) is [x], assertions are not executed.

    Simplifications: the text of the complaint is dropped ([Trouble]); FPTU_ENSURE raises a bug
    exception ([Thrown]); the schema is given by [preplaced_bytes()] and the list of its preplaced
    tokens (type, byte offset) in the order of [tokens()].  The map of intervals is a list in
    place of a vector; [std::upper_bound] is a linear search, which is the same for a sorted
    vector. *)
From Verif Require Import Base Tag Hippeus Scan.

(** ** The map of intervals *)
Definition imap := list (Z * Z).

(** [std::upper_bound] by [end < first]: the part before, in reverse order, and the part after.
    src: audit.cxx:123 with 45-49 *)
Fixpoint ub (e : Z) (before : imap) (l : imap) : imap * imap :=
  match l with
  | [] => (before, [])
  | (f, t) :: r => if e <? f then (before, l) else ub e ((f, t) :: before) r
  end.
(** src: audit.cxx:119-168 *)
Definition map_insert (l : imap) (b e : Z) : option imap :=
  let (before, after) := ub e [] l in
  match before with
  | [] => Some ((b, e) :: after)
  | (hb, he) :: prevs =>
    if he <? b then Some (rev before ++ (b, e) :: after)
    else if hb =? e then
      match prevs with
      | (pb, pe) :: pps =>
        if pe >? b then None
        else if pe =? b then Some (rev pps ++ (pb, he) :: after)
        else Some (rev prevs ++ (b, he) :: after)
      | [] => Some ((b, he) :: after)
      end
    else if b =? he then Some (rev prevs ++ (hb, e) :: after)
    else None
  end.
(** src: audit.cxx:77-78 *)
Definition map_begin (l : imap) : Z := match l with [] => 0 | (b, _) :: _ => b end.
Definition map_end (l : imap) : Z := snd (last l (0, 0)).

(** ** Verdicts *)
Inductive verdict (A : Type) := Good (a : A) | Trouble | Thrown.
Arguments Good {A}. Arguments Trouble {A}. Arguments Thrown {A}.
Definition chk (A : Type) : Type := (trace * verdict A)%type.
Definition ret {A} (a : A) : chk A := ([], Good a).
Definition trouble {A} : chk A := ([], Trouble).
Definition thrown {A} : chk A := ([], Thrown).
Definition after {A} (t : trace) (k : chk A) : chk A := (t ++ fst k, snd k).
Definition bindc {A B} (c : chk A) (f : A -> chk B) : chk B :=
  match c with
  | (t, Good a) => after t (f a)
  | (t, Trouble) => (t, Trouble)
  | (t, Thrown) => (t, Thrown)
  end.

(** ** Constants.  src: essentials.h:70-79 *)
Definition max_tuple_units_netto : Z := 65534.
Definition max_tuple_bytes_netto : Z := 4 * max_tuple_units_netto.
Definition max_field_bytes : Z := 4 * (max_tuple_units_netto - 1).
Definition max_fields : Z := 8191.

(** ** One chunk.  src: audit.cxx:170-190; addresses in bytes; the subtraction of [unit_t]
    pointers divides by four *)
Definition check_chunk (l : imap) (chunk units pb pe : Z) : chk imap :=
  if chunk <? pb then trouble
  else if units >? max_field_bytes then trouble
  else if chunk + 4 * units >? pe then trouble
  else let o := (chunk - pb) / 4 in
       match map_insert l (u16 o) (u16 (o + units)) with Some l' => ret l' | None => trouble end.

(** size of a variable-length payload at address [p] and the bytes read to find it.
    src: field.h:51-67 (string), 113-118 (varbin), 161-169 (nested), 255-270 (property), 301-317 *)
Definition brutto_at (m : bmem) (g p : Z) : Z :=
  if g =? 0 then bytes2units (if m p <? 254 then 1 + m p else 3 + m p + half m (p + 1) * 2)
  else if (g =? 1) || (g =? 2) then half m p
  else bytes2units (2 + m p).
Definition brutto_reads (m : bmem) (g p : Z) : trace :=
  if g =? 0 then (if m p <? 254 then [(p, 1)] else [(p, 1); (p + 1, 2)])
  else if (g =? 1) || (g =? 2) then [(p, 2)]
  else [(p, 1)].

(** The auditor: map_, holes_count_, holes_volume_.  src: audit.cxx:39-44 *)
Record auditor := mkA { amap : imap; acount : Z; avol : Z }.
Definition with_map (a : auditor) (l : imap) : auditor := mkA l (acount a) (avol a).

(** ** One index entry at address [a].  src: audit.cxx:192-228 *)
Definition check_loose (m : bmem) (au : auditor) (a pb pe : Z) : chk auditor :=
  let d := half m (a + 2) in
  let g := descriptor2genus d in
  let r := half m a in
  let p := a + 4 * r in
  after [(a + 2, 2)]
  (if is_inplaced_genus g then ret au
   else after [(a, 2)]
   (if g =? g_hole then
      let units := descriptor2id d in
      let au := mkA (amap au) (acount au + 1) (avol au) in
      if units =? 0 then (if r >? 0 then trouble else ret au)
      else if negb (r >? 0) then trouble
      else bindc (check_chunk (amap au) p units pb pe)
             (fun l => ret (mkA l (acount au) (avol au + units)))
    else if g >? g_property then
      if negb (r >? 0) then trouble
      else bindc (check_chunk (amap au) p (loose_units g) pb pe) (fun l => ret (with_map au l))
    else if r >? 0 then
      after (brutto_reads m g p)
        (bindc (check_chunk (amap au) p (brutto_at m g p) pb pe) (fun l => ret (with_map au l)))
    else ret au)).

(** the loop over the index, from [index_end - 1] down to [index_begin]: entry number [k] is at
    [pivot - 4 (k + 1)].  src: audit.cxx:252-256 *)
Definition entry_addr (pivot : Z) (k : nat) : Z := pivot - 4 * (Z.of_nat k + 1).
Fixpoint check_index (m : bmem) (pivot pe : Z) (n : nat) : chk auditor :=
  match n with
  | O => ret (mkA [] 0 0)
  | S k => bindc (check_index m pivot pe k) (fun au => check_loose m au (entry_addr pivot k) pivot pe)
  end.

(** ** Schema as seen by the validator *)
Record sch := mkSch { sbytes : Z; stoks : list (Z * Z) (* type, byte offset *) }.
Definition nstretchy (s : sch) : Z :=
  Z.of_nat (length (filter (fun t => negb (fst t >? g_property)) (stoks s))).
(** src: audit.cxx:282-301 *)
Fixpoint check_preplaced (m : bmem) (l : imap) (pivot pe : Z) (toks : list (Z * Z)) : chk imap :=
  match toks with
  | [] => ret l
  | (g, off) :: toks =>
    if g >? g_property then check_preplaced m l pivot pe toks
    else
      let a := pivot + off in
      let r := half m a in
      let p := a + 4 * r in
      after [(a, 2)]
      (if negb (r >? 0) then check_preplaced m l pivot pe toks
       else after (brutto_reads m g p)
         (bindc (check_chunk l p (brutto_at m g p) pivot pe)
            (fun l => check_preplaced m l pivot pe toks)))
  end.

(** non-empty holes of the index, inserted into an empty map; the number of intervals must
    grow by one each time.  src: audit.cxx:322-343 *)
Fixpoint check_adjacent (m : bmem) (pivot : Z) (n : nat) : chk (imap * Z) :=
  match n with
  | O => ret ([], 0)
  | S k =>
    bindc (check_adjacent m pivot k) (fun st =>
      let '(l, c) := st in
      let a := entry_addr pivot k in
      let d := half m (a + 2) in
      let units := descriptor2id d in
      after [(a + 2, 2)]
      (if negb (descriptor2genus d =? g_hole) || (units =? 0) then ret (l, c)
       else
         let b := (a + 4 * half m a - pivot) / 4 in
         after [(a, 2)]
         (if negb ((b <? b + units) && (0 <=? b) && (b <=? 65535) && (b + units <=? 65535)) then thrown
          else
            let l' := match map_insert l b (b + units) with Some l' => l' | None => l end in
            if c + 1 =? Z.of_nat (length l') then ret (l', c + 1) else trouble)))
  end.

(** std::is_sorted with [a.genus_and_id < b.genus_and_id]; addresses grow from [begin].
    src: audit.cxx:346-351 *)
Fixpoint is_sorted_from (m : bmem) (a : Z) (n : nat) : bool :=
  match n with
  | O | S O => true
  | S k => negb (half m (a + 4 + 2) <? half m (a + 2)) && is_sorted_from m (a + 4) k
  end.
Definition sorted_reads (a : Z) (n : nat) : trace := map (fun k => (a + 4 * Z.of_nat k + 2, 2)) (seq 0 n).

(** flags.  src: details/audit.h:28-34 *)
Record flags := mkF { f_sorted : bool; f_preplaced : bool; f_adjacent : bool }.

(** ** The validator.  src: audit.cxx:231-354.  [pivot - 4 n] is the start of the index *)
Definition audit_tuple (m : bmem) (schema : option sch) (pivot : Z) (n : nat) (pe : Z) (fl : flags) : chk (Z * Z) :=
  let pbytes := match schema with Some s => sbytes s | None => 0 end in
  let nst := match schema with Some s => nstretchy s | None => 0 end in
  if Z.of_nat n + nst >? max_fields then thrown
  else bindc (check_index m pivot pe n) (fun au =>
    if acount au >? 32767 then trouble
    else if avol au >? 65535 then trouble
    else
      let info := (acount au, avol au) in
      if f_preplaced fl && match schema with None => true | _ => false end then trouble
      else if negb (Bool.eqb (f_preplaced fl) (negb (pbytes =? 0))) then trouble
      else
        bindc
          (if pbytes =? 0 then ret (amap au)
           else if negb (match amap au with [] => true | _ => false end)
                   && (bytes2units pbytes >? map_begin (amap au)) then trouble
           else if pbytes >? pe - pivot then trouble
           else check_preplaced m (amap au) pivot pe match schema with Some s => stoks s | None => [] end)
          (fun l =>
            bindc
              (match l with
               | [] => ret tt
               | _ =>
                 if negb (Bool.eqb (f_preplaced fl) (map_begin l >? 0)) then trouble
                 else if negb (map_begin l =? bytes2units pbytes) then trouble
                 else if negb (pivot + 4 * map_end l =? pe) then trouble
                 else if Z.of_nat (length l) >? 1 then trouble
                 else if f_adjacent fl && (fst info >? 1)
                      then bindc (check_adjacent m pivot n) (fun _ => ret tt)
                      else ret tt
               end)
              (fun _ =>
                if f_sorted fl
                then after (sorted_reads (pivot - 4 * Z.of_nat n) n)
                       (if is_sorted_from m (pivot - 4 * Z.of_nat n) n then ret info else trouble)
                else ret info))).

(** ** Read-only tuples *)
(** header fields.  src: field.h:161-197, 458-461 *)
Definition ro_units (m : bmem) (ptr : Z) : Z := half m ptr.
Definition ro_index (m : bmem) (ptr : Z) : Z := Z.shiftr (half m (ptr + 2)) 3.
Definition ro_sorted (m : bmem) (ptr : Z) : bool := negb (Z.land (half m (ptr + 2)) 1 =? 0).
Definition ro_preplaced (m : bmem) (ptr : Z) : bool := negb (Z.land (half m (ptr + 2)) 2 =? 0).
Definition ro_pivot (m : bmem) (ptr : Z) : Z := ptr + 4 + 4 * ro_index m ptr.
Definition ro_end (m : bmem) (ptr : Z) : Z := ptr + 4 * ro_units m ptr.

(** src: audit.cxx:356-382 *)
Definition lite_checkup (m : bmem) (ptr bytes : Z) : chk unit :=
  if ptr =? 0 then trouble
  else if bytes <? 4 then trouble
  else if bytes >? max_tuple_bytes_netto then trouble
  else if negb (bytes mod 4 =? 0) then trouble
  else after [(ptr, 2)]
    (if negb (bytes =? 4 * ro_units m ptr) then trouble
     else after [(ptr + 2, 2)]
       (if ro_index m ptr >? max_fields then trouble
        else if ro_pivot m ptr >? ro_end m ptr then trouble
        else ret tt)).
(** src: audit.cxx:389-406 *)
Definition ro_audit (m : bmem) (ptr bytes : Z) (schema : option sch) : chk (Z * Z) :=
  bindc (lite_checkup m ptr bytes) (fun _ =>
    audit_tuple m schema (ro_pivot m ptr) (Z.to_nat (ro_index m ptr)) (ro_end m ptr)
      (mkF (ro_sorted m ptr) (ro_preplaced m ptr) false)).
(** src: ro.h:540-553 *)
Definition ro_audit_ex (m : bmem) (ptr bytes : Z) (schema : option sch) (no_holes : bool) : chk unit :=
  bindc (ro_audit m ptr bytes schema) (fun info =>
    if no_holes && negb (fst info =? 0) then trouble else ret tt).

(** ** Modifiable tuples.  src: audit.cxx:408-448; [area] is the address of area_[0] *)
Definition rw_audit (m : bmem) (area head pivot tail end_ jc jv : Z) (schema : option sch) : chk unit :=
  if head >? pivot then trouble
  else if pivot >? tail then trouble
  else if tail >? end_ then trouble
  else if end_ >? max_tuple_units_netto then trouble
  else if pivot - head >? max_fields then trouble
  else if jc >? pivot - head then trouble
  else if jv >? tail - pivot then trouble
  else bindc (audit_tuple m schema (area + 4 * pivot) (Z.to_nat (pivot - head)) (area + 4 * tail)
                (mkF false (match schema with Some s => sbytes s >? 0 | None => false end) true))
         (fun info => if negb (jc =? fst info) then trouble
                      else if negb (jv =? snd info) then trouble else ret tt).
