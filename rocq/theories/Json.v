(** render/writer.go:66-94 [WriteSearchIndex]: the search index as written by
    encoding/json (of which only what the index needs: strings, ints, a struct and
    a map with string keys). *)
From Coq Require Import Ascii String NArith.
From stdpp Require Import base list strings numbers.
From Verif Require Import GoBase Utf8 Ast Content Section Render.
Local Open Scope string_scope.
Local Open Scope list_scope.

Definition hex4 (x : N) : ascii := ascii_of_N (if (x <? 10)%N then 48 + x else 87 + x)%N.
Definition quote : ascii := """"%char.

(** encoding/json encode.go, [htmlSafeSet]: characters below 128 that are copied
    (escapeHTML is on for an Encoder). *)
Definition json_safe (a : ascii) : bool :=
  (32 <=? byte a)%N && negb (existsb (Ascii.eqb a) [quote; "\"%char; "<"%char; ">"%char; "&"%char]).

(** encode.go [appendString], one byte below 128. From Go 1.22 on, backspace and
    form feed have short escapes as well ([short]). *)
Definition json_ascii (short : bool) (a : ascii) : string :=
  if json_safe a then String a ""
  else if Ascii.eqb a "\" || Ascii.eqb a quote then String "\" (String a "")
  else if Ascii.eqb a nl then "\n"
  else if Ascii.eqb a cr then "\r"
  else if Ascii.eqb a "009" then "\t"
  else if short && Ascii.eqb a "008" then "\b"
  else if short && Ascii.eqb a "012" then "\f"
  else "\u00" +:+ String (hex4 (byte a / 16)) (String (hex4 (byte a mod 16)) "").

(** encode.go [appendString]: bytes that are not UTF-8 are replaced, U+2028 and
    U+2029 are escaped. [n] is at least the number of bytes. *)
Fixpoint json_chars (short : bool) (n : nat) (s : string) : string :=
  match n with
  | 0 => ""
  | S n =>
    match s with
    | "" => ""
    | String a r =>
      if (byte a <? 128)%N then json_ascii short a +:+ json_chars short n r
      else
        let '(c, w) := decode_rune s in
        if (c =? rune_error)%N && Nat.eqb w 1 then "\ufffd" +:+ json_chars short n r
        else if (c =? 8232)%N || (c =? 8233)%N
        then "\u202" +:+ String (hex4 (c mod 16)) "" +:+ json_chars short n (sdrop w s)
        else stake w s +:+ json_chars short n (sdrop w s)
    end
  end.
Definition json_string (short : bool) (s : string) : string :=
  String quote (json_chars short (String.length s) s) +:+ String quote "".

(** The struct; the field names are in the tags of render/writer.go:26-42. *)
Definition json_doc (short : bool) (d : search_doc) : string :=
  "{""location"":" +:+ json_string short (sd_location d) +:+
  ",""title"":" +:+ json_string short (sd_title d) +:+
  ",""text"":" +:+ json_string short (sd_text d) +:+
  ",""depth"":" +:+ dec (sd_depth d) +:+
  ",""section_tag"":" +:+ json_string short (sd_section_tag d) +:+ "}".

(** encode.go, [mapEncoder]: the keys in byte order. *)
Fixpoint string_ltb (s t : string) : bool :=
  match s, t with
  | _, "" => false
  | "", _ => true
  | String a s, String b t =>
    if (byte a <? byte b)%N then true else if Ascii.eqb a b then string_ltb s t else false
  end.
Fixpoint key_insert (x : string * search_doc) (l : list (string * search_doc)) : list (string * search_doc) :=
  match l with
  | [] => [x]
  | y :: l => if string_ltb (fst x) (fst y) then x :: y :: l else y :: key_insert x l
  end.
Fixpoint key_sort (l : list (string * search_doc)) : list (string * search_doc) :=
  match l with
  | [] => []
  | x :: l => key_insert x (key_sort l)
  end.
Definition json_entry (short : bool) (e : string * search_doc) : string :=
  json_string short (fst e) +:+ ":" +:+ json_doc short (snd e).

(** [json.NewEncoder(indexFile).Encode(index)]. *)
Definition json_index (short : bool) (idx : list (string * search_doc)) : string :=
  "{" +:+ sjoin "," (map (json_entry short) (key_sort idx)) +:+ "}" +:+ nls.

(** render/writer.go:66-94. [str] and the outcomes as for [search_index]; then the
    file is created and written. *)
Definition write_search_index (short : bool) (str : content → outcome error string) (h : heap)
    (open_ok : string → bool) (ext : string) (i : nat) (path : string) (fs : files) : outcome error files :=
  obind (λ idx,
    if open_ok path then Ok (assoc_set path (json_index short idx) fs) else Err (EStat path))
    (search_index str h ext i).
