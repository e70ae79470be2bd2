(** errors.go:356-422: showing the source line of an error. *)
From Coq Require Import Ascii String ZArith.
From stdpp Require Import base list strings.
From Verif Require Import GoBase Ast Section.
Local Open Scope string_scope.

Fixpoint index_nl (s : string) : option nat :=
  match s with
  | "" => None
  | String c r => if Ascii.eqb c nl then Some 0 else S <$> index_nl r
  end.

(** Without a carriage return at the end. *)
Fixpoint drop_cr (s : string) : string :=
  match s with
  | "" => ""
  | String c "" => if Ascii.eqb c cr then "" else s
  | String c r => String c (drop_cr r)
  end.

(** Go: bufio.Reader.ReadLine with a buffer of [size] bytes (4096 in
    bufio.NewReader) on a reader with [s] left: the line, without line break, and
    what is left. None is io.EOF. A line that fills the buffer is returned in
    pieces, of which a carriage return at the end is kept for the next. *)
Definition read_line (size : nat) (s : string) : option (string * string) :=
  match s with
  | "" => None
  | _ =>
    match index_nl (stake size s) with
    | Some k => Some (drop_cr (stake k s), sdrop (S k) s)
    | None =>
      if Nat.ltb (String.length s) size then Some (s, "")
      else
        let n := String.length (drop_cr (stake size s)) in
        Some (stake n s, sdrop n s)
    end
  end.

(** 405-410: lines passed over; None: io.EOF is returned as an error. *)
Fixpoint skip_lines (size n : nat) (s : string) : option string :=
  match n with
  | 0 => Some s
  | S n => r ← read_line size s; skip_lines size n (snd r)
  end.

(** 395-422 [lineInQuestion] of a file that could be opened. *)
Definition line_in_question (size : nat) (file : string) (line : nat) : option string :=
  s ← skip_lines size (line - 1) file;
  match read_line size s with
  | None => Some ""
  | Some (l, _) => Some l
  end.

(** Go: s[i:j]; None: it panics. *)
Definition slice (s : string) (i j : Z) : option string :=
  if (0 <=? i)%Z && (i <=? j)%Z && (j <=? Z.of_nat (String.length s))%Z
  then Some (stake (Z.to_nat (j - i)) (sdrop (Z.to_nat i) s)) else None.

Record snippet := Snippet { sn_eof : bool; sn_line : nat; sn_prefix : string; sn_annotated : string; sn_suffix : string }.

Inductive annotation :=
| ANone               (* 366-369: no location *)
| AFail               (* 371-374: an error is returned *)
| APanic
| AShow (s : snippet).

(** 365-393 [AnnotatedHTML]; [file] is the file's content if it can be opened. A
    template calling this function turns the panic into an error. *)
Definition annotated (size : nat) (file : option string) (l : errloc) : annotation :=
  if Nat.eqb (l_line (el_loc l)) 0 then ANone
  else
    match f ← file; line_in_question size f (l_line (el_loc l)) with
    | None => AFail
    | Some line =>
      let eof := String.eqb line "" in
      let offset := (Z.of_nat (l_col (el_loc l)) - 1)%Z in
      let until := (offset + Z.of_nat (el_len l))%Z in
      let len := Z.of_nat (String.length line) in
      if (until <=? len)%Z then
        match slice line 0 offset, slice line offset until, slice line until len with
        | Some p, Some a, Some s => AShow (Snippet eof (l_line (el_loc l)) p a s)
        | _, _, _ => APanic
        end
      else AShow (Snippet eof (l_line (el_loc l)) "" "" "")
    end.
