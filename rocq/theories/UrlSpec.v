(** Following a link between pages in the same directory, independently of how links
    are written: RFC 3986 as browsers apply it. *)
From Coq Require Import Ascii String.
From stdpp Require Import base strings list.
From Verif Require Import GoBase.
Local Open Scope string_scope.

Definition hex_value (c : ascii) : option nat :=
  let n := nat_of_ascii c in
  if Nat.leb 48 n && Nat.leb n 57 then Some (n - 48)
  else if Nat.leb 97 n && Nat.leb n 102 then Some (n - 87)
  else if Nat.leb 65 n && Nat.leb n 70 then Some (n - 55)
  else None.

(** Percent-decoding. *)
Fixpoint unescape (s : string) : string :=
  match s with
  | "" => ""
  | String c r =>
    if Ascii.eqb c "%" then
      match r with
      | String a (String b r') =>
        match hex_value a, hex_value b with
        | Some x, Some y => String (ascii_of_nat (16 * x + y)) (unescape r')
        | _, _ => String c (unescape r)
        end
      | _ => String c (unescape r)
      end
    else String c (unescape r)
  end.

(** What is before the first number sign, and what is after it. *)
Fixpoint cut_fragment (s : string) : string * option string :=
  match s with
  | "" => ("", None)
  | String c r =>
    if Ascii.eqb c "#" then ("", Some r)
    else let '(a, b) := cut_fragment r in (String c a, b)
  end.

(** The file in the directory of the current page that a URL names, and the place
    in it. [None]: the URL has a scheme, a query, or another directory. *)
Definition opens (url : string) : option (string * option string) :=
  let '(path, fragment) := cut_fragment url in
  if sforall (λ c, negb (Ascii.eqb c "/" || Ascii.eqb c "\" || Ascii.eqb c ":" || Ascii.eqb c "?")) path
  then Some (unescape path, unescape <$> fragment)
  else None.

(** Names that mean the same in a URL and as a file name. *)
Definition plain_name (a : string) : Prop :=
  sforall (λ c, negb (existsb (Ascii.eqb c) ["#"; "?"; "%"; "/"; ":"; "000"]%char)) a = true.
