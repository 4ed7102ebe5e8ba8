(** Conversions of string views to and from standard strings and views, checked and plain access, and iteration
    (fast_positive/tuples/string_view.h:46-225, src/misc.cxx:43-47, details/getter.h:50-62). *)
From Coq Require Import ZArith List Bool.
From Verif Require Import Base Hippeus Values.
Import ListNotations.
Open Scope Z_scope.

(** a 64-bit number read as a signed one, as [static_cast<intptr_t>] of a [std::size_t] does *)
Definition to_intptr (n : Z) : Z := sgn 64 (u64 n).

(** ** Construction *)
(** from an address and a count of type [std::size_t]; the assertion is off in release builds.
    src: fast_positive/tuples/string_view.h:59-62 *)
Definition view_counted (p count : Z) : sview := mkSV p (if p =? 0 then -1 else to_intptr count).
(** from two addresses.  src: string_view.h:64-68 *)
Definition view_range (b e : Z) : sview := mkSV b (if b =? 0 then -1 else to_intptr (e - b)).
(** [strlen]: the distance to the first zero byte, looked for among [fuel] bytes; [None] = not found there *)
Fixpoint c_strlen (fuel : nat) (m : bmem) (p : Z) : option Z :=
  match fuel with
  | O => None
  | S fuel => if m p =? 0 then Some 0 else match c_strlen fuel m (p + 1) with Some n => Some (n + 1) | None => None end
  end.
(** from a zero-terminated text.  src: string_view.h:70-73 *)
Definition view_text (fuel : nat) (m : bmem) (p : Z) : option sview :=
  if p =? 0 then Some sv_nil else match c_strlen fuel m p with Some n => Some (mkSV p (to_intptr n)) | None => None end.

(** ** Standard strings and views *)
(** a standard view: address and count; a default one is [(0, 0)] *)
Record std_view := mkStd { std_data : Z; std_size : Z }.
(** a standard string: where its bytes are kept (never at 0) and the bytes *)
Record std_string := mkStr { str_place : Z; str_bytes : list Z }.
(** the memory that holds this string *)
Definition holds (m : bmem) (s : std_string) : Prop :=
  str_place s <> 0 /\ bytes_at m (str_place s) (length (str_bytes s)) = str_bytes s.
(** src: string_view.h:77-81 *)
Definition view_of_string (s : std_string) : sview := mkSV (str_place s) (to_intptr (Z.of_nat (length (str_bytes s)))).
(** the bytes of the string made of a view; [std::string(nullptr, 0)] is the empty string.
    src: string_view.h:82 *)
Definition string_of_view (m : bmem) (v : sview) : list Z := sv_bytes m v.
(** src: string_view.h:92-95 *)
Definition view_of_std (v : std_view) : sview := mkSV (std_data v) (to_intptr (std_size v)).
(** src: string_view.h:96-98 *)
Definition std_of_view (v : sview) : std_view := mkStd (sv_str v) (sv_length v).
(** exchange with a standard view.  src: string_view.h:99-109 *)
Definition swap_std (v : sview) (w : std_view) : sview * std_view := (view_of_std w, std_of_view v).
(** exchange with another view.  src: string_view.h:112-116 *)
Definition swap_view (v w : sview) : sview * sview := (w, v).
(** a pair of address and size made of a view and the view made of it, as getters hand them over.
    src: details/getter.h:53, 59-61 *)
Definition thunk_of_view (v : sview) : std_view := mkStd (sv_str v) (sv_length v).
Definition view_of_thunk (t : std_view) : sview := view_counted (std_data t) (std_size t).

(** ** Questions and access *)
(** src: string_view.h:161-162 *)
Definition sv_is_empty (v : sview) : bool := sv_len v <=? 0.
Definition sv_is_nil (v : sview) : bool := sv_len v <? 0.
(** src: string_view.h:137, 164 *)
Definition sv_npos : Z := 2147483647.
Definition sv_max_size : Z := 32767.
(** where a plain access reads; no check.  src: string_view.h:125-135 *)
Definition sv_index (m : bmem) (v : sview) (pos : Z) : Z := m (sv_str v + pos).
Definition sv_front (m : bmem) (v : sview) : Z := m (sv_str v).
Definition sv_back (m : bmem) (v : sview) : Z := m (sv_str v + (sv_len v - 1)).
(** the checked access; [None] = [std::out_of_range].  src: src/misc.cxx:43-47 *)
Definition sv_at (m : bmem) (v : sview) (pos : Z) : option Z :=
  if pos >=? sv_length v then None else Some (m (sv_str v + pos)).
(** a walk from [begin()] to [end()]: [fuel] steps at most; [None] = the end was not met.
    src: string_view.h:139-144 *)
Fixpoint walk_up (fuel : nat) (m : bmem) (it last : Z) : option (list Z) :=
  if it =? last then Some []
  else match fuel with
       | O => None
       | S fuel => match walk_up fuel m (it + 1) last with Some l => Some (m it :: l) | None => None end
       end.
Definition sv_begin (v : sview) : Z := sv_str v.
Definition sv_end (v : sview) : Z := sv_str v + sv_length v.
(** the same backwards: a reverse iterator reads the byte before the one it holds.
    src: string_view.h:146-155 *)
Fixpoint walk_down (fuel : nat) (m : bmem) (it last : Z) : option (list Z) :=
  if it =? last then Some []
  else match fuel with
       | O => None
       | S fuel => match walk_down fuel m (it - 1) last with Some l => Some (m (it - 1) :: l) | None => None end
       end.

(** ** Comparison with standard strings *)
(** src: string_view.h:199-206 *)
Definition compare_string (mc : list Z -> list Z -> Z) (m : bmem) (a : sview) (s : std_string) : Z :=
  sv_compare mc m a (view_of_string s).
Definition string_compare (mc : list Z -> list Z -> Z) (m : bmem) (s : std_string) (b : sview) : Z :=
  sv_compare mc m (view_of_string s) b.
(** the address pairs that [compare] hands to [memcmp] (formally not allowed to be null, even for no bytes).
    src: string_view.h:174-179 *)
Definition compares_at (a b : sview) : option (Z * Z) :=
  if (sv_len a =? sv_len b) && negb (sv_str a =? sv_str b) then Some (sv_str a, sv_str b) else None.
