(** Content kinds (content.go and one file per kind), IsFlow, Append, StripAux. *)
From Coq Require Import Ascii String.
From stdpp Require Import base list strings.
From Verif Require Import GoBase Ast.

(** All implementations of the [Content] interface of content.go:5-17 in the
    repository. Sections are referred to by their heap index. Fields that the
    base plugin can leave nil are [option]s; the other content fields are
    assumed non-nil (they are in everything the base plugin builds).

    - [CRef]: reference.go:16-37 (the cached [tag] field is modelled separately
      in RefCache.v).
    - [CStyled]: styled.go:4-17; partials is a Go map from names to possibly nil
      content, an association list here.
    - [CTarget]: target.go:7-12. [CLazy]: lazy.go:5-12, the function is an
      abstract thunk id. [CAux]: aux_.go:9-11 (embeds its content). *)
Inductive content :=
| CString (s : string)
| CSeq (l : list content)
| CPara (l : list content)
| CPre (l : list content)
| CRef (sec : nat) (tag : string) (c : option content) (opt : bool) (l : loc)
| CLink (c : content) (target : string)
| CSection (s : nat)
| CToc (s : nat)
| CStyled (style : string) (block : bool) (c : content) (ps : list (string * option content))
| CTarget (tag : string) (l : loc) (title : option content) (c : option content)
| CImage (path desc : string)
| CList (items : list content) (ordered : bool)
| CTable (rows : list (list content))
| CDefs (defs : list (content * content))
| CLazy (block : bool) (thunk : nat)
| CAux (c : content).

(** string.go:9 [Empty]. *)
Definition CEmpty : content := CString "".

(** ** IsFlow *)

(** string.go:12, sequence.go:8, paragraph.go:29, preformatted.go:20,
    reference.go:40, link.go (embedded), section.go:147, toc.go:10,
    styled.go:43, target.go:15, image.go:15, list.go:19, table.go:9,
    definitions.go:15, lazy.go:32, aux_.go (embedded). *)
Fixpoint is_flow (c : content) : bool :=
  match c with
  | CString _ => true
  | CSeq l => forallb is_flow l
  | CPara _ => false
  | CPre _ => false
  | CRef _ _ _ _ _ => true
  | CLink c _ => is_flow c
  | CSection _ => false
  | CToc _ => false
  | CStyled _ block c _ => if block then false else is_flow c
  | CTarget _ _ _ _ => true
  | CImage _ _ => true
  | CList _ _ => false
  | CTable _ => false
  | CDefs _ => false
  | CLazy block _ => negb block
  | CAux c => is_flow c
  end.

(** ** Append *)

(** append.go:7-26 [Append]. Note the [return]s inside the loop. Go's [append]
    may share the backing array with other slices; slices are immutable lists
    here. *)
Fixpoint append_go (appended : option content) (rest : list (option content)) : option content :=
  match rest with
  | [] => appended
  | None :: rest => append_go appended rest
  | Some c :: rest =>
    match appended with
    | None => append_go (Some c) rest
    | Some (CSeq v) => Some (CSeq (v ++ [c]))
    | Some a => Some (CSeq [a; c])
    end
  end.
Definition go_append (first : option content) (rest : list (option content)) : option content :=
  append_go first rest.

(** ** StripAux *)

Definition is_aux (c : content) : bool := match c with CAux _ => true | _ => false end.

(** aux_.go:15-144 [StripAux]: [None] is a nil dereference
    ([content.Visit] on a nil interface, aux_.go:18). [Aux] embeds its content,
    so visiting an [Aux] visits the content; only [stripAuxSeq]
    (aux_.go:134-144) drops [Aux] elements. *)
Fixpoint strip_aux (c : content) : option content :=
  let strip_seq := fix strip_seq (l : list content) : option (list content) :=
    match l with
    | [] => Some []
    | x :: r =>
      if is_aux x then strip_seq r
      else match strip_aux x with
           | Some x' => match strip_seq r with
                        | Some r' => Some (x' :: r')
                        | None => None
                        end
           | None => None
           end
    end in
  match c with
  | CString _ => Some c
  | CSeq l => match strip_seq l with Some l => Some (CSeq l) | None => None end
  | CPara l => match strip_seq l with Some l => Some (CPara l) | None => None end
  | CPre l => match strip_seq l with Some l => Some (CPre l) | None => None end
  | CRef s t rc o l =>
    match rc with
    | None => None
    | Some rc => match strip_aux rc with
                 | Some rc => Some (CRef s t (Some rc) o l)
                 | None => None
                 end
    end
  | CSection _ => Some c
  | CToc _ => Some c
  | CStyled st b x ps =>
    match strip_aux x with
    | None => None
    | Some x =>
      let strip_ps := fix strip_ps (ps : list (string * option content))
          : option (list (string * option content)) :=
        match ps with
        | [] => Some []
        | (k, None) :: r => strip_ps r
        | (k, Some v) :: r =>
          match strip_aux v with
          | Some v => match strip_ps r with
                      | Some r => Some ((k, Some v) :: r)
                      | None => None
                      end
          | None => None
          end
        end in
      match strip_ps ps with
      | Some ps => Some (CStyled st b x ps)
      | None => None
      end
    end
  | CTarget t l ti x =>
    match ti with
    | None => None
    | Some ti =>
      match strip_aux ti with
      | None => None
      | Some ti =>
        match x with
        | None => None
        | Some x => match strip_aux x with
                    | Some x => Some (CTarget t l (Some ti) (Some x))
                    | None => None
                    end
        end
      end
    end
  | CImage _ _ => Some c
  | CList items o => match strip_seq items with Some l => Some (CList l o) | None => None end
  | CLink x t => match strip_aux x with Some x => Some (CLink x t) | None => None end
  | CTable rows =>
    let strip_rows := fix strip_rows (rows : list (list content)) : option (list (list content)) :=
      match rows with
      | [] => Some []
      | row :: r => match strip_seq row with
                    | Some row => match strip_rows r with
                                  | Some r => Some (row :: r)
                                  | None => None
                                  end
                    | None => None
                    end
      end in
    match strip_rows rows with Some rows => Some (CTable rows) | None => None end
  | CDefs defs =>
    let strip_defs := fix strip_defs (defs : list (content * content)) : option (list (content * content)) :=
      match defs with
      | [] => Some []
      | (s, d) :: r =>
        match strip_aux s with
        | None => None
        | Some s => match strip_aux d with
                    | None => None
                    | Some d => match strip_defs r with
                                | Some r => Some ((s, d) :: r)
                                | None => None
                                end
                    end
        end
      end in
    match strip_defs defs with Some defs => Some (CDefs defs) | None => None end
  | CLazy _ _ => Some c
  | CAux x => strip_aux x
  end.
