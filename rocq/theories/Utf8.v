(** Go's [utf8.DecodeRune] (unicode/utf8), used by the generated parser
    (ast/booklit.peg.go:1891-1907). *)
From Coq Require Import Ascii String NArith.
From stdpp Require Import base list strings numbers.
From Verif Require Import GoBase.
Local Open Scope N_scope.

Definition byte (c : ascii) : N := N_of_ascii c.
Definition within (lo hi : N) (c : ascii) : bool := (lo <=? byte c) && (byte c <=? hi).

(** [utf8.RuneError]. *)
Definition rune_error : N := 65533.

(** The bytes allowed after a given first byte, and the value the first byte
    contributes (the tables [first] and [acceptRanges] of unicode/utf8). *)
Inductive lead :=
| LAscii (r : N)
| LBad
| L2 (v : N)
| L3 (v lo hi : N)
| L4 (v lo hi : N).

Definition lead_of (a : ascii) : lead :=
  let x := byte a in
  if x <? 128 then LAscii x
  else if x <? 194 then LBad
  else if x <? 224 then L2 (x - 192)
  else if x =? 224 then L3 0 160 191
  else if x =? 237 then L3 13 128 159
  else if x <? 240 then L3 (x - 224) 128 191
  else if x =? 240 then L4 0 144 191
  else if x <? 244 then L4 (x - 240) 128 191
  else if x =? 244 then L4 4 128 143
  else LBad.

Definition low6 (c : ascii) : N := byte c - 128.

(** The rune at the start of the bytes and its width; width 0 at the end, width
    1 with [rune_error] for an invalid encoding. *)
Definition decode_rune (s : string) : N * nat :=
  match s with
  | ""%string => (rune_error, 0%nat)
  | String a r =>
    match lead_of a with
    | LAscii x => (x, 1%nat)
    | LBad => (rune_error, 1%nat)
    | L2 v =>
      match r with
      | String b _ =>
        if within 128 191 b then (v * 64 + low6 b, 2%nat) else (rune_error, 1%nat)
      | _ => (rune_error, 1%nat)
      end
    | L3 v lo hi =>
      match r with
      | String b (String c _) =>
        if within lo hi b && within 128 191 c
        then (v * 4096 + low6 b * 64 + low6 c, 3%nat) else (rune_error, 1%nat)
      | _ => (rune_error, 1%nat)
      end
    | L4 v lo hi =>
      match r with
      | String b (String c (String d _)) =>
        if within lo hi b && within 128 191 c && within 128 191 d
        then (v * 262144 + low6 b * 4096 + low6 c * 64 + low6 d, 4%nat) else (rune_error, 1%nat)
      | _ => (rune_error, 1%nat)
      end
    end
  end.
