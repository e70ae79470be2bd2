(** Induction over templates. *)
From Coq Require Import Ascii String.
From stdpp Require Import base tactics strings list.
From Verif Require Import GoBase Tmpl.
Local Open Scope list_scope.

Section operand.
  Context (P : operand → Prop).
  Context (Hdot : P ODot) (Hfield : ∀ fs, P (OField fs)) (Hvar : ∀ v fs, P (OVar v fs)) (Hfunc : ∀ f, P (OFunc f)).
  Context (Hstr : ∀ s, P (OStr s)) (Hnum : ∀ n, P (ONum n)) (Hbool : ∀ b, P (OBool b)) (Hnil : P ONil).
  Context (Hparen : ∀ p, Forall (Forall P) p → P (OParen p)).
  Fixpoint operand_ind' (o : operand) : P o :=
    match o with
    | ODot => Hdot | OField fs => Hfield fs | OVar v fs => Hvar v fs | OFunc f => Hfunc f
    | OStr s => Hstr s | ONum n => Hnum n | OBool b => Hbool b | ONil => Hnil
    | OParen p => Hparen p ((fix all p : Forall (Forall P) p :=
        match p with
        | [] => List.Forall_nil _
        | c :: p => List.Forall_cons _ _ _
            ((fix each c : Forall P c :=
              match c with [] => List.Forall_nil _ | o :: c => List.Forall_cons _ _ _ (operand_ind' o) (each c) end) c)
            (all p)
        end) p)
    end.
End operand.

Section node.
  Context (P : node → Prop).
  Context (Htext : ∀ s, P (NText s)) (Hact : ∀ x p, P (NAct x p)) (Hdecl : ∀ v p, P (NDecl v p)).
  Context (Hif : ∀ p t e, Forall P t → Forall P e → P (NIf p t e)).
  Context (Hwith : ∀ p t e, Forall P t → Forall P e → P (NWith p t e)).
  Context (Hrange : ∀ vs p t e, Forall P t → Forall P e → P (NRange vs p t e)).
  Context (Hcall : ∀ n p, P (NCall n p)).
  Fixpoint node_ind' (x : node) : P x :=
    let each := fix each l : Forall P l :=
      match l with [] => List.Forall_nil _ | x :: l => List.Forall_cons _ _ _ (node_ind' x) (each l) end in
    match x with
    | NText s => Htext s
    | NAct x p => Hact x p
    | NDecl v p => Hdecl v p
    | NIf p t e => Hif p t e (each t) (each e)
    | NWith p t e => Hwith p t e (each t) (each e)
    | NRange vs p t e => Hrange vs p t e (each t) (each e)
    | NCall n p => Hcall n p
    end.
End node.
