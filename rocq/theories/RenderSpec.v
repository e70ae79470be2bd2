(** Independent specification of what is written where. *)
From Coq Require Import Ascii String.
From stdpp Require Import base list strings relations.
From Verif Require Import GoBase Ast Content Section Render TreeSpec.

(** Decision procedure for [is_page]. *)
Definition page_b (h : heap) (i : nat) : bool :=
  match h !! i with
  | None => false
  | Some s => match s_parent s with
              | None => true
              | Some p => match h !! p with Some ps => s_split ps | None => false end
              end
  end.

(** Name of the file of page [i]: its primary tag plus the extension. *)
Definition file_of (h : heap) (ext : string) (i : nat) : string :=
  match h !! i with
  | Some s => (t_name (s_primary s) +:+ "." +:+ ext)%string
  | None => ""%string
  end.

(** Opening and rendering a list of pages one after the other, stopping at the
    first failure. *)
Fixpoint write_pages (h : heap) (open_ok : string → bool) (ext : string) (eng : engine)
    (pages : list nat) (fs : files) : files * option error :=
  match pages with
  | [] => (fs, None)
  | i :: r =>
    if open_ok (file_of h ext i) then
      let fs' := assoc_set (file_of h ext i) (fst (eng i)) fs in
      match snd (eng i) with
      | Some e => (fs', Some e)
      | None => write_pages h open_ok ext eng r fs'
      end
    else (fs, Some (EStat (file_of h ext i)))
  end.

(** [pages] are the pages of the tree below [r], in depth-first order. *)
Definition pages_of (h : heap) (r : nat) (pages : list nat) : Prop :=
  ∃ l, listing h (λ _, true) r l ∧ pages = List.filter (page_b h) l.
