(** Entries one after the other, with nothing of interest around them. *)
From Coq Require Import Ascii String.
From stdpp Require Import base tactics relations strings list.
From Verif Require Import GoBase StrProofs Ast Content Section TreeSpec TreeProofs QueryProofs NavProofs.
Local Open Scope string_scope.
Local Open Scope list_scope.

(** [P]: the strings that may stand between entries. *)
Inductive woven (P : string → Prop) : list string → string → Prop :=
| woven_nil s : P s → woven P [] s
| woven_cons s e es out : P s → woven P es out → woven P (e :: es) (s +:+ e +:+ out).

Section woven.
  Context (P : string → Prop) (HP : ∀ a b, P a → P b → P (a +:+ b)).

  Lemma woven_between s es out : P s → woven P es out → woven P es (s +:+ out).
  Proof.
    intros Hs [s' Hs'|s' e es' out' Hs' Hw].
    - constructor. by apply HP.
    - rewrite <- sapp_assoc. constructor; [by apply HP|done].
  Qed.
  Lemma woven_app es a fs b : woven P es a → woven P fs b → woven P (es ++ fs) (a +:+ b).
  Proof.
    induction 1 as [s Hs|s e es out Hs Hw IH]; intros Hb; [by apply woven_between|].
    rewrite !sapp_assoc. cbn [app]. constructor; [done|by apply IH].
  Qed.
  Lemma woven_after es a s : woven P es a → P s → woven P es (a +:+ s).
  Proof. intros H Hs. replace es with (es ++ []) by apply app_nil_r. apply woven_app; [done|by constructor]. Qed.
  Lemma woven_flatten ess xs x : Forall2 (woven P) ess xs → woven P xs x → woven P (concat ess) x.
  Proof.
    intros F W. revert ess F. induction W as [s Hs|s e es out Hs Hw IH]; intros ess F; inversion F; subst; cbn [concat].
    - by constructor.
    - apply woven_between; [done|]. apply woven_app; [done|]. by apply IH.
  Qed.

  (** A tree of sections: what stands for a section consists of its entry and what
      stands for those of its children that [follow] admits. *)
  Context (h : heap) (follow : section → bool) (entry : nat → string → Prop) (R : nat → string → Prop).
  Context (HR : ∀ i s x, h !! i = Some s → R i x → ∃ e xs, entry i e ∧
    Forall2 R (if follow s then s_children s else []) xs ∧ woven P (e :: xs) x).

  Lemma tree_woven i l : listing h follow i l → ∀ x, R i x → ∃ es, Forall2 entry l es ∧ woven P es x.
  Proof.
    intros H.
    refine (listing_mut h follow (λ i l _, ∀ x, R i x → ∃ es, Forall2 entry l es ∧ woven P es x)
      (λ cs l _, ∀ xs, Forall2 R cs xs → ∃ ess, Forall2 entry l (concat ess) ∧ Forall2 (woven P) ess xs)
      _ _ _ i l H); clear i l H.
    - intros i s l Hi _ IH x Hx. destruct (HR _ _ _ Hi Hx) as (e & xs & He & F & W).
      destruct (IH _ F) as (ess & Fe & Fw). exists (e :: concat ess). split; [by constructor|].
      inversion W as [|s' ? ? out' Hs' W']; subst. constructor; [done|]. by eapply woven_flatten.
    - intros xs F. inversion F; subst. exists []. split; constructor.
    - intros c cs l1 l2 _ IH1 _ IH2 xs F. inversion F as [|? x ? xs' Hx F']; subst.
      destruct (IH1 _ Hx) as (es & E1 & W1). destruct (IH2 _ F') as (ess & E2 & W2).
      exists (es :: ess). split; [by apply Forall2_app|by constructor].
  Qed.
  Lemma trees_woven cs l : listings h follow cs l → ∀ xs, Forall2 R cs xs → ∃ ess, Forall2 entry l (concat ess) ∧ Forall2 (woven P) ess xs.
  Proof.
    induction 1 as [|c cs l1 l2 Hc _ IH2]; intros xs F; inversion F as [|? x ? xs' Hx F']; subst.
    - exists []. split; constructor.
    - destruct (tree_woven _ _ Hc _ Hx) as (es & E1 & W1). destruct (IH2 _ F') as (ess & E2 & W2).
      exists (es :: ess). split; [by apply Forall2_app|by constructor].
  Qed.
End woven.
