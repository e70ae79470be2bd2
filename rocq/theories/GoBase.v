(** Go-level basics shared by the whole model: outcomes of Go calls, and the
    string / path helpers of the Go standard library that booklit uses.
    Go strings are byte strings and are modelled by Coq's [string]. *)
From Coq Require Import Ascii String Decimal DecimalString.
From stdpp Require Import base list strings numbers.

Global Arguments String.append : simpl nomatch.

(** ** Outcomes

    A Go call returns a value ([Ok]), returns a non-nil error ([Err]), panics
    ([Panic]), or does not return within the recursion budget of the model
    ([NoFuel], an explicit error value of the model). *)
Inductive outcome (E A : Type) : Type :=
| Ok (a : A)
| Err (e : E)
| Panic
| NoFuel.
Arguments Ok {E A} a.
Arguments Err {E A} e.
Arguments Panic {E A}.
Arguments NoFuel {E A}.

Definition obind {E A B} (f : A → outcome E B) (m : outcome E A) : outcome E B :=
  match m with
  | Ok a => f a
  | Err e => Err e
  | Panic => Panic
  | NoFuel => NoFuel
  end.

Global Instance outcome_bind E : MBind (outcome E) := λ A B f m, obind f m.
Global Instance outcome_ret E : MRet (outcome E) := λ A a, Ok a.
Global Instance outcome_fmap E : FMap (outcome E) := λ A B f m, obind (λ a, Ok (f a)) m.

(** Sequential [for _, x := range l] collecting results, stopping at the first
    failure. *)
Definition omapM {E A B} (f : A → outcome E B) : list A → outcome E (list B) :=
  fix go (l : list A) : outcome E (list B) :=
  match l with
  | [] => Ok []
  | x :: r => obind (λ y, obind (λ ys, Ok (y :: ys)) (go r)) (f x)
  end.

(** ** Recursion over pointers

    Go recursion following pointers: [gofix F n x] unfolds the recursive Go
    function [F] at most [n] times; [None] is "did not return / nil
    dereference". *)
Fixpoint gofix {X A : Type} (F : (X → option A) → X → option A) (n : nat) (x : X) : option A :=
  match n with
  | 0 => None
  | S n => F (gofix F n) x
  end.

(** ** Strings *)

Definition nl : ascii := "010"%char.
Definition cr : ascii := "013"%char.
Definition nls : string := String nl "".

Fixpoint sforall (p : ascii → bool) (s : string) : bool :=
  match s with
  | "" => true
  | String c r => p c && sforall p r
  end%string.

Fixpoint sfilter (p : ascii → bool) (s : string) : string :=
  match s with
  | "" => ""
  | String c r => if p c then String c (sfilter p r) else sfilter p r
  end%string.

Fixpoint smap (f : ascii → ascii) (s : string) : string :=
  match s with
  | "" => ""
  | String c r => String (f c) (smap f r)
  end%string.

(** Go: [strings.HasPrefix]. *)
Fixpoint has_prefix (p s : string) : bool :=
  match p, s with
  | "", _ => true
  | String a p, String b s => Ascii.eqb a b && has_prefix p s
  | _, _ => false
  end%string.

(** Go: [s[n:]] for [n] at most the length. *)
Fixpoint sdrop (n : nat) (s : string) : string :=
  match n, s with
  | 0, _ => s
  | S n, String _ r => sdrop n r
  | S _, "" => ""
  end%string.

(** Go: [s[:n]] for [n] at most the length. *)
Fixpoint stake (n : nat) (s : string) : string :=
  match n, s with
  | 0, _ => ""
  | S n, String c r => String c (stake n r)
  | S _, "" => ""
  end%string.

(** Go: [strings.HasSuffix]. *)
Definition has_suffix (suf s : string) : bool :=
  (String.length suf <=? String.length s)
  && String.eqb (sdrop (String.length s - String.length suf) s) suf.

(** Go: [strings.TrimSuffix]. *)
Definition trim_suffix (suf s : string) : string :=
  if has_suffix suf s then stake (String.length s - String.length suf) s else s.

(** Go: [strings.TrimPrefix]. *)
Definition trim_prefix (p s : string) : string :=
  if has_prefix p s then sdrop (String.length p) s else s.

(** Go: [strings.Join]. *)
Fixpoint sjoin (sep : string) (l : list string) : string :=
  match l with
  | [] => ""
  | [x] => x
  | x :: r => x +:+ sep +:+ sjoin sep r
  end%string.

(** Concatenation of a list of strings ([str += x] in a loop). *)
Fixpoint sconcat (l : list string) : string :=
  match l with
  | [] => ""
  | x :: r => x +:+ sconcat r
  end%string.

(** Go: [strings.Split(s, sep)] for a one-byte separator. *)
Fixpoint ssplit (sep : ascii) (s : string) : list string :=
  match s with
  | "" => [""]
  | String c r =>
    if Ascii.eqb c sep then "" :: ssplit sep r
    else match ssplit sep r with
         | w :: ws => String c w :: ws
         | [] => [String c ""]
         end
  end%string.

(** Go: [strings.TrimRight(s, cutset)] for a one-byte cutset. *)
Fixpoint trim_right (cut : ascii) (s : string) : string :=
  match s with
  | "" => ""
  | String c r =>
    let r' := trim_right cut r in
    if Ascii.eqb c cut then (if String.eqb r' "" then "" else String c r')
    else String c r'
  end%string.

(** Go: [strings.ReplaceAll(s, old, new)] for a non-empty [old]: leftmost
    non-overlapping matches. [skip] counts the bytes of the current match that
    remain to be dropped. *)
Fixpoint replace_go (old new : string) (skip : nat) (s : string) : string :=
  match s with
  | "" => ""
  | String c r =>
    match skip with
    | S k => replace_go old new k r
    | 0 => if has_prefix old s
           then new +:+ replace_go old new (String.length old - 1) r
           else String c (replace_go old new 0 r)
    end
  end%string.
Definition replace_all (old new s : string) : string := replace_go old new 0 s.

Definition code (c : ascii) : nat := nat_of_ascii c.
Definition is_lower (c : ascii) : bool := (97 <=? code c) && (code c <=? 122).
Definition is_upper (c : ascii) : bool := (65 <=? code c) && (code c <=? 90).
Definition is_digit (c : ascii) : bool := (48 <=? code c) && (code c <=? 57).

(** Go: [strings.ToLower] on one ASCII byte. *)
Definition lower (c : ascii) : ascii :=
  if is_upper c then ascii_of_nat (code c + 32) else c.
(** Go: [unicode.ToUpper] on one ASCII byte. *)
Definition upper (c : ascii) : ascii :=
  if is_lower c then ascii_of_nat (code c - 32) else c.

(** Go: [fmt.Sprintf("%d", n)] for a non-negative [n]. *)
Definition dec (n : nat) : string := NilZero.string_of_uint (Nat.to_uint n).

(** ** Paths (Unix) *)

(** Go: [filepath.Clean]: lexical processing of "." and ".." components. The
    accumulator holds the output components in reverse. *)
Fixpoint clean_go (rooted : bool) (comps acc : list string) : list string :=
  match comps with
  | [] => acc
  | c :: r =>
    if String.eqb c "" then clean_go rooted r acc
    else if String.eqb c "." then clean_go rooted r acc
    else if String.eqb c ".." then
      match acc with
      | [] => if rooted then clean_go rooted r [] else clean_go rooted r [".."%string]
      | a :: acc' => if String.eqb a ".." then clean_go rooted r (c :: acc)
                     else clean_go rooted r acc'
      end
    else clean_go rooted r (c :: acc)
  end.

Definition slash : ascii := "/"%char.

Definition path_clean (p : string) : string :=
  match p with
  | "" => "."
  | _ =>
    let rooted := has_prefix "/" p in
    let out := sjoin "/" (rev (clean_go rooted (ssplit slash p) [])) in
    if rooted then "/" +:+ out
    else if String.eqb out "" then "." else out
  end%string.

(** Go: [filepath.Join(a, b)]: empty elements are ignored. *)
Definition path_join (a b : string) : string :=
  if String.eqb a "" then (if String.eqb b "" then "" else path_clean b)
  else if String.eqb b "" then path_clean a
  else path_clean (a +:+ "/" +:+ b)%string.

(** Go: [filepath.Dir]: everything up to the last slash, cleaned. *)
Definition path_dir (p : string) : string :=
  path_clean (match rev (ssplit slash p) with
              | [] => ""
              | _ :: r => match r with
                          | [] => ""
                          | _ => sjoin "/" (rev r) +:+ "/"
                          end
              end)%string.

(** Go: [filepath.Base]-like last component. *)
Definition last_component (p : string) : string :=
  match rev (ssplit slash p) with [] => ""%string | x :: _ => x end.
