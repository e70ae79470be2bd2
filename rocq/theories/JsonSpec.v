(** Specification: reading JSON (RFC 8259), of which objects, strings and
    non-negative integers. Escapes of surrogates are not accepted. *)
From Coq Require Import Ascii String NArith Decimal DecimalString.
From stdpp Require Import base list strings numbers.
From Verif Require Import GoBase ParseSpec Render.
Local Open Scope string_scope.
Local Open Scope list_scope.

Inductive json :=
| JStr (s : string)
| JNum (n : nat)
| JObj (ms : list (string * json)).

Definition white (a : ascii) : bool := existsb (Ascii.eqb a) [" "; "009"; "010"; "013"]%char.
Fixpoint skip (s : string) : string :=
  match s with
  | String a r => if white a then skip r else s
  | "" => ""
  end.

Definition hex_value (a : ascii) : option N :=
  let x := N_of_ascii a in
  if (48 <=? x)%N && (x <=? 57)%N then Some (x - 48)%N
  else if (97 <=? x)%N && (x <=? 102)%N then Some (x - 87)%N
  else if (65 <=? x)%N && (x <=? 70)%N then Some (x - 55)%N
  else None.

Definition short_escape (a : ascii) : option ascii :=
  if Ascii.eqb a """" then Some """"%char
  else if Ascii.eqb a "\" then Some "\"%char
  else if Ascii.eqb a "/" then Some "/"%char
  else if Ascii.eqb a "b" then Some "008"%char
  else if Ascii.eqb a "f" then Some "012"%char
  else if Ascii.eqb a "n" then Some "010"%char
  else if Ascii.eqb a "r" then Some "013"%char
  else if Ascii.eqb a "t" then Some "009"%char
  else None.

Definition prepend (p : string) (x : option (string * string)) : option (string * string) :=
  '(v, r) ← x; Some (p +:+ v, r).

(** After the opening quote: the text up to the closing quote, and the rest. *)
Fixpoint read_text (s : string) : option (string * string) :=
  match s with
  | "" => None
  | String a r =>
    if Ascii.eqb a """" then Some ("", r)
    else if Ascii.eqb a "\" then
      match r with
      | "" => None
      | String b r =>
        if Ascii.eqb b "u" then
          match r with
          | String h3 (String h2 (String h1 (String h0 r))) =>
            match hex_value h3, hex_value h2, hex_value h1, hex_value h0 with
            | Some x3, Some x2, Some x1, Some x0 =>
              let x := (4096 * x3 + 256 * x2 + 16 * x1 + x0)%N in
              if (55296 <=? x)%N && (x <? 57344)%N then None else prepend (encode x) (read_text r)
            | _, _, _, _ => None
            end
          | _ => None
          end
        else match short_escape b with Some c => prepend (String c "") (read_text r) | None => None end
      end
    else if (N_of_ascii a <? 32)%N then None
    else prepend (String a "") (read_text r)
  end.

Fixpoint digits (s : string) : string * string :=
  match s with
  | String a r => if is_digit a then let '(d, r) := digits r in (String a d, r) else ("", s)
  | "" => ("", "")
  end.
Definition read_number (s : string) : option (nat * string) :=
  let '(d, r) := digits s in
  match d with
  | "" => None
  | String "0" (String _ _) => None
  | _ => u ← NilZero.uint_of_string d; Some (Nat.of_uint u, r)
  end.

(** Members of an object, after the opening brace and its first quote. *)
Fixpoint read_members (value : string → option (json * string)) (k : nat) (s : string)
    : option (list (string * json) * string) :=
  match k with
  | 0 => None
  | S k =>
    '(name, r) ← read_text s;
    match skip r with
    | String ":" r =>
      '(v, r) ← value r;
      match skip r with
      | String "}" r => Some ([(name, v)], r)
      | String "," r =>
        match skip r with
        | String """" r => '(ms, r) ← read_members value k r; Some ((name, v) :: ms, r)
        | _ => None
        end
      | _ => None
      end
    | _ => None
    end
  end.

Fixpoint read_value (n : nat) (s : string) : option (json * string) :=
  match n with
  | 0 => None
  | S n =>
    match skip s with
    | String """" r => '(t, r) ← read_text r; Some (JStr t, r)
    | String "{" r =>
      match skip r with
      | String "}" r => Some (JObj [], r)
      | String """" r => '(ms, r) ← read_members (read_value n) (String.length r) r; Some (JObj ms, r)
      | _ => None
      end
    | s => '(x, r) ← read_number s; Some (JNum x, r)
    end
  end.

(** A text that is one JSON value. *)
Definition json_read (s : string) : option json :=
  '(v, r) ← read_value (S (String.length s)) s;
  match skip r with "" => Some v | _ => None end.

(** A text with every byte that begins no UTF-8 encoding replaced by U+FFFD. *)
Inductive mended : string → string → Prop :=
| mended_nil : mended "" ""
| mended_char c s t : scalar c → mended s t → mended (encode c +:+ s) (encode c +:+ t)
| mended_byte a s t : (∀ c r, scalar c → String a s ≠ encode c +:+ r) → mended s t →
    mended (String a s) (encode 65533 +:+ t).

(** Byte order. *)
Definition before (s t : string) : Prop :=
  (∃ a r, t = s +:+ String a r) ∨
  ∃ p a b r q, s = p +:+ String a r ∧ t = p +:+ String b q ∧ (N_of_ascii a < N_of_ascii b)%N.

(** The member of the object that stands for an entry of the index. *)
Definition doc_json (l ti te : string) (d : nat) (st : string) : json :=
  JObj [("location", JStr l); ("title", JStr ti); ("text", JStr te); ("depth", JNum d); ("section_tag", JStr st)].

Definition reads (e : string * search_doc) (m : string * json) : Prop :=
  mended (fst e) (fst m) ∧ ∃ l ti te st, snd m = doc_json l ti te (sd_depth (snd e)) st ∧
    mended (sd_location (snd e)) l ∧ mended (sd_title (snd e)) ti ∧
    mended (sd_text (snd e)) te ∧ mended (sd_section_tag (snd e)) st.

(** The same when nothing needs mending. *)
Definition entry_json (e : string * search_doc) : string * json :=
  (fst e, doc_json (sd_location (snd e)) (sd_title (snd e)) (sd_text (snd e)) (sd_depth (snd e)) (sd_section_tag (snd e))).
Definition entry_utf8 (e : string * search_doc) : Prop :=
  valid_utf8 (fst e) ∧ valid_utf8 (sd_location (snd e)) ∧ valid_utf8 (sd_title (snd e)) ∧
  valid_utf8 (sd_text (snd e)) ∧ valid_utf8 (sd_section_tag (snd e)).
