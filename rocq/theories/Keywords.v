(** * Keywords: the perfect hash of the ECMAScript keywords (model).

    src: src/gperf_ECMAScript_keywords.h.
    The memory from [str] on is the list of the bytes that may be read, as unsigned values; reading
    past its end, or past the end of a table, is [None]. *)
From Verif Require Import Base.
From Coq Require Import String Ascii.
Open Scope Z_scope.

Definition codes (w : string) : list Z := map (fun c => Z.of_N (N_of_ascii c)) (list_ascii_of_string w).

(** asso_values[].  src: gperf_ECMAScript_keywords.h:50-58 *)
Definition asso_values : list Z :=
  repeat 56 97 ++
  [10; 15; 0; 0; 0; 10; 56; 30; 0; 56; 56; 15; 40; 0; 20;
   10; 56; 15; 5; 5; 20; 30; 20; 35; 0; 56; 56; 56; 56; 56; 56].
(** hash(); len is one of 2..10 here, so the narrowing of len does nothing.  src: 48-61 *)
Definition hash (str : list Z) (len : Z) : option Z :=
  match nth_error str 0, nth_error str 1 with
  | Some c0, Some c1 =>
    match nth_error asso_values (Z.to_nat c1), nth_error asso_values (Z.to_nat c0) with
    | Some a1, Some a0 => Some ((len + a1 + a0) mod 4294967296)
    | _, _ => None
    end
  | _, _ => None
  end.

(** the pool, in the order of its members, each with the number in its name.  src: 64-117 *)
Definition members : list (Z * string) :=
  [(2, "in"); (3, "new"); (4, "enum"); (5, "yield"); (6, "delete"); (7, "default"); (8, "debugger"); (9, "interface"); (10, "instanceof");
   (11, "typeof"); (12, "if"); (14, "case"); (15, "catch"); (16, "static"); (17, "finally"); (18, "let"); (19, "else"); (20, "class");
   (21, "return"); (22, "do"); (23, "try"); (24, "with"); (25, "const"); (27, "package"); (28, "continue"); (30, "super"); (31, "switch");
   (32, "private"); (33, "for"); (34, "protected"); (35, "break"); (36, "public"); (38, "function"); (39, "this"); (40, "throw");
   (41, "export"); (42, "extends"); (43, "var"); (46, "import"); (50, "implements"); (54, "void"); (55, "while")]%string.
Definition stringpool : list Z := flat_map (fun m => codes (snd m) ++ [0]) members.
(** wordlist[]: the offset of the member with this number, -1 where there is none.  src: 119-175 *)
Fixpoint offset_of (l : list (Z * string)) (o key : Z) : Z :=
  match l with
  | [] => -1
  | (n, w) :: l => if n =? key then o else offset_of l (o + Z.of_nat (String.length w) + 1) key
  end.
Definition wordlist (key : Z) : option Z := if key <? 56 then Some (offset_of members 0 key) else None.

(** whether strcmp() finds the strings equal *)
Fixpoint same_string (a b : list Z) : option bool :=
  match a, b with
  | x :: a, y :: b => if x =? y then if x =? 0 then Some true else same_string a b else Some false
  | _, _ => None
  end.

(** in_word_set(): the offset of the answer in the pool.  src: 177-192 *)
Definition in_word_set (str : list Z) (len : Z) : option (option Z) :=
  if (len <=? 10) && (2 <=? len) then
    match hash str len with
    | None => None
    | Some key =>
      if key <=? 55 then
        match wordlist key with
        | None => None
        | Some o =>
          if 0 <=? o then
            let s := skipn (Z.to_nat o) stringpool in
            match str, s with
            | x :: str', y :: s' =>
              if x =? y then
                match same_string str' s' with Some true => Some (Some o) | Some false => Some None | None => None end
              else Some None
            | _, _ => None
            end
          else Some None
        end
      else Some None
    end
  else Some None.
