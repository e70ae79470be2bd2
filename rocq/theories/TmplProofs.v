(** Executing templates: the steps. *)
From Coq Require Import Ascii String Lia.
From stdpp Require Import base tactics relations functions strings list.
From Verif Require Import GoBase StrProofs Ast Content ContentProofs Section Render Html TextRender Templates Tmpl TmplEsc TmplExec TmplSpec.
Local Open Scope string_scope.
Local Open Scope list_scope.

(** ** Results that differ at most in the kind of error *)

Lemma like_err_refl e : like_err e e.
Proof. by destruct e. Qed.
Lemma like_refl {A} (a : outcome rerr A) : like a a.
Proof. destruct a; try done. apply like_err_refl. Qed.
Lemma like_eq {A} (a b : outcome rerr A) : a = b → like a b.
Proof. intros ->. apply like_refl. Qed.

Section steps.
  Context (similar : string → string → bool) (broken : bool) (h : heap) (str : content → outcome error string).
  Context (ext : string) (html : bool) (R : content → rendered) (call : string → val → rendered).

  Lemma obind_ret {A} (m : outcome rerr A) : obind (λ x, Ok x) m = m.
  Proof. by destruct m. Qed.
  Lemma obind_Err {A B} (f : A → outcome rerr B) e : obind f (Err e) = Err e.
  Proof. done. Qed.

  Notation el := (exec_list similar broken h str ext html R (exec_node similar broken h str ext html R call)).
  Notation en := (exec_node similar broken h str ext html R call).
  Notation ev := (eval similar broken h str ext html R).
  Notation mem := (member similar broken h str).

  (** *** Nodes *)

  Lemma el_text dot e s l : el dot e (NText s :: l) = obind (λ t, Ok (s +:+ t)) (el dot e l).
  Proof. done. Qed.
  Lemma el_act dot e x p l :
    el dot e (NAct x p :: l) = obind (λ s, obind (λ t, Ok (s +:+ t)) (el dot e l)) (obind (put str html x) (ev e dot p)).
  Proof. done. Qed.
  Lemma el_if dot e p t f l v : ev e dot p = Ok v →
    el dot e (NIf p t f :: l) = obind (λ s, obind (λ t, Ok (s +:+ t)) (el dot e l)) (el dot e (if truth v then t else f)).
  Proof. intros E. cbn [exec_list exec_node]. by rewrite E. Qed.
  Lemma el_range dot e vs p t f l v xs : ev e dot p = Ok v → items v = Some xs →
    el dot e (NRange vs p t f :: l) =
    obind (λ s, obind (λ t, Ok (s +:+ t)) (el dot e l))
      (match xs with [] => el dot e f | _ => exec_range (λ i x, el x (binds vs i x e) t) 0 xs end).
  Proof. intros E I. cbn [exec_list exec_node]. rewrite E. cbn [obind]. rewrite I. by destruct xs. Qed.
  Lemma el_nil dot e : el dot e [] = Ok "".
  Proof. done. Qed.
  Lemma el_err dot e x l er : en e dot x = Err er → (match x with NDecl _ _ => False | _ => True end) → el dot e (x :: l) = Err er.
  Proof. intros E N. destruct x; try done; cbn [exec_list]; by rewrite E. Qed.

  (** *** Pipelines *)

  Definition rend (v : val) : got := match con_of v with Some c => obind (λ s, Ok (if html then VHtml s else VStr s)) (R c) | None => fails end.
  Lemma con_vcon c : con_of (vcon c) = Some c.
  Proof. by destruct c. Qed.

  Lemma ev_dot e dot : ev e dot [[ODot]] = Ok dot.
  Proof. done. Qed.
  Lemma ev_field e dot f : ev e dot [[OField [f]]] = mem dot f [].
  Proof. apply obind_ret. Qed.
  Lemma ev_var e dot v x : assoc_get v e = Some x → ev e dot [[OVar v []]] = Ok x.
  Proof. intros E. unfold eval. cbn [eval_pipe eval_command eval_arg obind]. by rewrite E. Qed.
  Lemma ev_field_render e dot f : ev e dot [[OField [f]]; [OFunc "render"]] = obind rend (mem dot f []).
  Proof. change (obind (λ v, obind (λ x, Ok x) (rend v)) (mem dot f []) = obind rend (mem dot f [])). destruct (mem dot f []); try done. apply obind_ret. Qed.
  Lemma ev_dot_render e dot : ev e dot [[ODot]; [OFunc "render"]] = rend dot.
  Proof. apply obind_ret. Qed.
  Lemma ev_var_render e dot v x : assoc_get v e = Some x → ev e dot [[OVar v []]; [OFunc "render"]] = rend x.
  Proof.
    intros E. unfold eval. cbn [eval_pipe eval_command eval_arg obind]. rewrite E. cbn [members obind].
    change (obind (λ x, Ok x) (rend x) = rend x). apply obind_ret.
  Qed.
  Lemma ev_not e dot f : ev e dot [[OFunc "not"; OField [f]]] = obind (λ v, Ok (VBool (negb (truth v)))) (mem dot f []).
  Proof.
    change (obind (λ v, Ok v) (obind (λ vs, apply_func h str ext html R "not" (vs ++ []))
      (obind (λ y, obind (λ ys, Ok (y :: ys)) (Ok [])) (mem dot f []))) = obind (λ v, Ok (VBool (negb (truth v)))) (mem dot f [])).
    by destruct (mem dot f []).
  Qed.
  Lemma ev_and_not e dot f g : ev e dot [[OFunc "and"; OField [f]; OParen [[OFunc "not"; OField [g]]]]] =
    obind (λ v, if truth v then obind (λ w, Ok (VBool (negb (truth w)))) (mem dot g []) else Ok v) (mem dot f []).
  Proof.
    change (obind (λ v, Ok v) (obind (λ v, shortcut false (eval_arg similar broken h str ext html R e dot) v [OParen [[OFunc "not"; OField [g]]]])
      (mem dot f [])) =
      obind (λ v, if truth v then obind (λ w, Ok (VBool (negb (truth w)))) (mem dot g []) else Ok v) (mem dot f [])).
    destruct (mem dot f []) as [v| | |]; try done. cbn [obind shortcut]. destruct (truth v); cbn [Bool.eqb]; [|done].
    change (eval_arg similar broken h str ext html R e dot (OParen [[OFunc "not"; OField [g]]])) with (ev e dot [[OFunc "not"; OField [g]]]).
    rewrite ev_not. destruct (mem dot g []) as [w| | |]; try done. cbn [obind]. by destruct (truth w).
  Qed.
  Definition stripped (v : val) : got :=
    match con_of v with Some c => want (strip_aux c) vcon | None => fails end.
  Lemma ev_strip e dot f :
    ev e dot [[OField [f]]; [OFunc "stripAux"]; [OFunc "render"]] = obind rend (obind stripped (mem dot f [])).
  Proof.
    change (obind (λ v, obind (λ v, obind (λ x, Ok x) (rend v)) (stripped v)) (mem dot f []) = obind rend (obind stripped (mem dot f []))).
    destruct (mem dot f []) as [v| | |]; try done. cbn [obind]. destruct (stripped v) as [w| | |]; try done. cbn [obind]. apply obind_ret.
  Qed.

  (** Where what was rendered is put as it is. *)
  Definition plain : place := if html then XText else XRaw.
  Lemma put_rend v c : con_of v = Some c → obind (put str html plain) (rend v) = R c.
  Proof. intros E. unfold rend, plain. rewrite E. destruct (R c); try done. by destruct html. Qed.

  Lemma act_render e dot f v c l : mem dot f [] = Ok v → con_of v = Some c →
    el dot e (NAct plain [[OField [f]]; [OFunc "render"]] :: l) = obind (λ s, obind (λ t, Ok (s +:+ t)) (el dot e l)) (R c).
  Proof. intros M C. rewrite el_act, ev_field_render, M. cbn [obind]. by rewrite (put_rend v c C). Qed.
  Lemma act_dot e dot c l : con_of dot = Some c →
    el dot e (NAct plain [[ODot]; [OFunc "render"]] :: l) = obind (λ s, obind (λ t, Ok (s +:+ t)) (el dot e l)) (R c).
  Proof. intros C. rewrite el_act, ev_dot_render. by rewrite (put_rend dot c C). Qed.
  Lemma act_var e dot v x c l : assoc_get v e = Some x → con_of x = Some c →
    el dot e (NAct plain [[OVar v []]; [OFunc "render"]] :: l) = obind (λ s, obind (λ t, Ok (s +:+ t)) (el dot e l)) (R c).
  Proof. intros E C. rewrite el_act, (ev_var_render _ _ _ _ E). by rewrite (put_rend x c C). Qed.
  Lemma act_str e dot x f s l : mem dot f [] = Ok (VStr s) →
    el dot e (NAct x [[OField [f]]] :: l) = obind (λ s, obind (λ t, Ok (s +:+ t)) (el dot e l)) (put str html x (VStr s)).
  Proof. intros M. rewrite el_act, ev_field, M. done. Qed.

  (** *** Lists *)

  Fixpoint concat_from {B} (g : nat → B → string) (k : nat) (ys : list B) : string :=
    match ys with [] => "" | y :: ys => g k y +:+ concat_from g (S k) ys end.
  Lemma range_omapM {A B} (f : nat → val → rendered) (φ : A → val) (F : A → outcome rerr B) (g : nat → B → string) l : ∀ k,
    (∀ i x, f i (φ x) = obind (λ y, Ok (g i y)) (F x)) →
    exec_range f k (map φ l) = obind (λ ys, Ok (concat_from g k ys)) (omapM F l).
  Proof.
    induction l as [|x l IH]; intros k H; [done|].
    cbn [map exec_range omapM]. rewrite H. destruct (F x) as [y| | |]; try done. cbn [obind].
    fold (exec_range f (S k) (map φ l)). rewrite IH by done. fold (omapM F l). by destruct (omapM F l).
  Qed.
  Lemma concat_from_map {B} (g : B → string) ys : ∀ k, concat_from (λ _, g) k ys = sconcat (map g ys).
  Proof. induction ys as [|y ys IH]; intros k; [done|]. cbn [concat_from map sconcat]. by rewrite IH. Qed.
  Lemma concat_from_join sep ys :
    concat_from (λ i s, (if Nat.eqb i 0 then "" else sep) +:+ s) 0 ys = sjoin sep ys.
  Proof.
    destruct ys as [|y ys]; [done|]. cbn [concat_from Nat.eqb].
    assert (∀ ys y k, y +:+ concat_from (λ i s, (if Nat.eqb i 0 then "" else sep) +:+ s) (S k) ys = sjoin sep (y :: ys)) as H; [|apply H].
    clear. induction ys as [|z ys IH]; intros y k.
    - cbn [concat_from sjoin]. apply sapp_nil_r.
    - cbn [concat_from Nat.eqb]. rewrite sapp_assoc, (IH z (S k)). done.
  Qed.

  Lemma el_each {A B} (φ : A → val) (F : A → outcome rerr B) (g : nat → B → string) dot e vs p t l v xs :
    ev e dot p = Ok v → items v = Some (map φ xs) →
    (∀ i x, el (φ x) (binds vs i (φ x) e) t = obind (λ y, Ok (g i y)) (F x)) →
    el dot e (NRange vs p t [] :: l) = obind (λ ys, obind (λ t, Ok (concat_from g 0 ys +:+ t)) (el dot e l)) (omapM F xs).
  Proof.
    intros E I H. rewrite (el_range _ _ _ _ _ _ _ _ _ E I).
    assert (match map φ xs with [] => el dot e [] | _ :: _ => exec_range (λ i x, el x (binds vs i x e) t) 0 (map φ xs) end =
      obind (λ ys, Ok (concat_from g 0 ys)) (omapM F xs)) as ->; [|by destruct (omapM F xs)].
    rewrite <- (range_omapM (λ i x, el x (binds vs i x e) t) φ F g xs 0 H). by destruct xs.
  Qed.
End steps.
