(** Vocabulary for stating what the parser does, independent of how it does it. *)
From Coq Require Import Ascii String NArith.
From stdpp Require Import base list strings numbers.
From Verif Require Import GoBase Ast.
Local Open Scope string_scope.
Local Open Scope list_scope.

(** ** UTF-8, from the encoder's side *)

(** The characters of Unicode. *)
Definition scalar (x : N) : Prop := (x < 55296 ∨ 57344 <= x < 1114112)%N.

Definition chr (x : N) : ascii := ascii_of_N x.

Definition encode (x : N) : string :=
  (if x <? 128 then String (chr x) ""
   else if x <? 2048 then String (chr (192 + x / 64)) (String (chr (128 + x mod 64)) "")
   else if x <? 65536 then
     String (chr (224 + x / 4096)) (String (chr (128 + x / 64 mod 64))
       (String (chr (128 + x mod 64)) ""))
   else
     String (chr (240 + x / 262144)) (String (chr (128 + x / 4096 mod 64))
       (String (chr (128 + x / 64 mod 64)) (String (chr (128 + x mod 64)) ""))))%N.

Definition utf8 (xs : list N) : string := sconcat (map encode xs).

Definition valid_utf8 (d : string) : Prop := ∃ xs, Forall scalar xs ∧ d = utf8 xs.

(** ** Positions in a file *)

Fixpoint lf_count (s : string) : nat :=
  match s with
  | "" => 0
  | String a r => (if Ascii.eqb a nl then 1 else 0) + lf_count r
  end.

(** Bytes of the form 10xxxxxx continue a character. *)
Definition continues (a : ascii) : bool := (128 <=? N_of_ascii a)%N && (N_of_ascii a <? 192)%N.

Fixpoint col_from (k : nat) (s : string) : nat :=
  match s with
  | "" => k
  | String a r => col_from (if Ascii.eqb a nl then 1 else if continues a then k else S k) r
  end.

(** Line and column, counted from one, of what comes after [s]. *)
Definition line_after (s : string) : nat := 1 + lf_count s.
Definition col_after (s : string) : nat := col_from 1 s.

(** ** Shape of parsed documents *)

Definition line_free (t : string) : bool := sforall (λ a, negb (Ascii.eqb a nl) && negb (Ascii.eqb a cr)) t.

Definition name_char (a : ascii) : bool :=
  Ascii.eqb a "-" || ((97 <=? N_of_ascii a) && (N_of_ascii a <=? 122))%N.
Definition name_ok (f : string) : Prop := f ≠ "" ∧ sforall name_char f = true.

(** [l] is where [d] has a backslash and the whole function name [f]. *)
Definition located (d f : string) (l : loc) : Prop :=
  ∃ pre post, d = pre +:+ String "\" (f +:+ post) ∧
    match post with String a _ => name_char a = false | "" => True end ∧
    l_off l = String.length pre ∧ l_line l = line_after pre ∧ l_col l = col_after pre.

(** Nodes anywhere in the parse of [d]. *)
Inductive shaped (d : string) : node → Prop :=
| shaped_string t : line_free t = true → shaped d (NString t)
| shaped_invoke f args l : name_ok f → located d f l → Forall (shaped d) args → shaped d (NInvoke f args l)
| shaped_seq l : Forall (shaped d) l → shaped d (NSeq l)
| shaped_para ls : ls ≠ [] → Forall (λ l, l ≠ [] ∧ Forall (shaped d) l) ls → shaped d (NPara ls)
| shaped_pre ls : Forall (λ l, l ≠ [] ∧ Forall (shaped d) l) ls → shaped d (NPre ls).
