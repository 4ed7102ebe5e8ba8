(** * Schema: the throwing lookups and the two shorthands of definitions (model).

    src: src/schema.cxx:488-512, 538-552, fast_positive/tuples/token.h:54. *)
From Verif Require Import Base Tag Schema.

(** src: token.h:54 *)
Definition token_valid (t : Z) : bool := negb (t =? 0).

(** The lookup of a token by name that throws [schema_no_such_field]; [None] = the exception.
    src: schema.cxx:488-496 *)
Definition token_or_throw (s : schema) (n : name) (disc sat : option bool) : option Z :=
  let ident := get_token s n disc sat in
  if token_valid ident then Some ident else None.

(** The lookup of a name by token that throws; the nil string of [get_name_nothrow] is [None] of
    [get_name] (an empty name is not nil: it is the buffer of a std::string), [None] = the exception.
    src: schema.cxx:508-513 *)
Definition name_or_throw (s : schema) (ident : Z) : option name :=
  match get_name s ident with None => None | Some n => Some n end.

(** src: schema.cxx:538-544 *)
Definition define_field (s : schema) (preplaced : bool) (n : name) (type : Z) (disc sat : bool) : outcome :=
  if preplaced then define_preplaced s n type disc sat None
  else define_loose s n type false disc sat.

(** src: schema.cxx:546-551 *)
Definition define_collection (s : schema) (n : name) (type : Z) (disc sat : bool) : outcome :=
  define_loose s n type true disc sat.
