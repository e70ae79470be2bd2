(** Tables of contents. *)
From Coq Require Import Ascii String Lia.
From stdpp Require Import base tactics relations strings list.
From Verif Require Import GoBase StrProofs Ast Content Section TreeSpec TreeProofs QueryProofs NavProofs Render
  Html HtmlSpec HtmlProofs HtmlRender HtmlText Woven.
Local Open Scope string_scope.
Local Open Scope list_scope.

(** ** Specification *)

(** Markup that shows nothing: the elements of the nested lists and white space. *)
Definition scaffold_token (t : token) : Prop :=
  match t with
  | TChar c => space c = true
  | TOpen n l => n ∈ ["nav"; "ul"; "li"] ∧ l = []
  | TClose n => n ∈ ["nav"; "ul"; "li"]
  | _ => False
  end.
Definition scaffold (s : string) : Prop := ∃ ts, tokens s = Some ts ∧ Forall scaffold_token ts.

Section toc.
  Context (similar : string → string → bool) (broken : bool) (h : heap).
  Context (force : nat → option content) (str : content → outcome error string).
  Notation ht := (html similar broken h force str).

  (** The entry of section [c]: a link to it, showing its number and its title
      without what is auxiliary. *)
  Definition entry (c : nat) (e : string) : Prop :=
    ∃ s u nu t m shown, h !! c = Some s ∧ tag_url h "html" (s_primary s) = Some u ∧ number h c = Some nu ∧
      strip_aux (s_title s) = Some t ∧ ht m t = Ok shown ∧
      e = "<a href=""" +:+ url_attr u +:+ """>" +:+ escape nu +:+ " " +:+ shown +:+ "</a>".

  (** ** Proof *)

  Lemma scaffold_app a b : scaffold a → scaffold b → scaffold (a +:+ b).
  Proof.
    intros (ts & H & F) (ts' & H' & F'). exists (ts ++ ts'). split; [|by apply Forall_app].
    unfold tokens in *. destruct (read SText a) as [[[] ?]|] eqn:Ea; try done. injection H as ->.
    destruct (read SText b) as [[[] ?]|] eqn:Eb; try done. injection H' as ->.
    erewrite read_app; [|exact Ea|exact Eb]. done.
  Qed.
  Definition scaffold_b (t : token) : bool :=
    match t with
    | TChar c => space c
    | TOpen n l => (String.eqb n "nav" || String.eqb n "ul" || String.eqb n "li") && match l with [] => true | _ => false end
    | TClose n => String.eqb n "nav" || String.eqb n "ul" || String.eqb n "li"
    | _ => false
    end.
  Lemma scaffold_lit s : match tokens s with Some ts => forallb scaffold_b ts | None => false end = true → scaffold s.
  Proof.
    destruct (tokens s) as [ts|] eqn:E; [|done]. intros H. exists ts. split; [done|].
    rewrite forallb_forall in H. apply Forall_forall. intros t Ht. apply elem_of_list_In, H in Ht. clear -Ht.
    destruct t as [c|n l|n|n l|d]; simpl in *; try done.
    - apply andb_true_iff in Ht as [Ht Hl]. split; [|by destruct l]. rewrite !elem_of_cons.
      rewrite !orb_true_iff, !String.eqb_eq in Ht. tauto.
    - rewrite !elem_of_cons. rewrite !orb_true_iff, !String.eqb_eq in Ht. tauto.
  Qed.

  Notation weave := (woven scaffold).

  Lemma woven_lit s es out : match tokens s with Some ts => forallb scaffold_b ts | None => false end = true →
    weave es out → weave es (s +:+ out).
  Proof. intros H. apply woven_between; [exact scaffold_app|by apply scaffold_lit]. Qed.
  Lemma woven_end s : match tokens s with Some ts => forallb scaffold_b ts | None => false end = true → weave [] s.
  Proof. intros H. by constructor; apply scaffold_lit. Qed.

  Definition follow (s : section) : bool := negb (s_omit s).

  Definition toc_entry (jump : content → rendered) (c : nat) : outcome rerr (string * string * string * string) :=
    match h !! c with
    | None => Err RNil
    | Some cs =>
      match tag_url h "html" (s_primary cs), number h c, strip_aux (s_title cs) with
      | Some u, Some n, Some t => obind (λ t, obind (λ sub, Ok (u, n, t, sub)) (jump (CToc c))) (jump t)
      | _, _, _ => Err RNil
      end
    end.

  Definition piece (e : string * string * string * string) : string :=
    match e with (u, n, t, sub) =>
    nls +:+ "    <li>" +:+ nls +:+ "      " +:+
    ("<a href=""" +:+ url_attr u +:+ """>" +:+ escape n +:+ " " +:+ t +:+ "</a>") +:+ nls +:+ nls +:+
    "      " +:+ sub +:+ nls +:+ "    </li>" +:+ nls +:+ "  " end.

  Ltac wl := apply woven_lit; [vm_compute; reflexivity|].
  Ltac we := apply woven_end; vm_compute; reflexivity.
  Ltac sl := apply scaffold_lit; vm_compute; reflexivity.

  Lemma piece_woven u n t sub es : weave es sub →
    weave (("<a href=""" +:+ url_attr u +:+ """>" +:+ escape n +:+ " " +:+ t +:+ "</a>") :: es) (piece (u, n, t, sub)).
  Proof.
    intros H. unfold piece. do 3 wl. apply woven_cons; [sl|]. do 3 wl.
    replace es with (es ++ []) by apply app_nil_r. apply woven_app; [exact scaffold_app|done|]. do 3 wl. we.
  Qed.

  Lemma toc_step jump i s : h !! i = Some s →
    toc_tmpl h jump i = match s_children s with
                        | [] => Ok ""
                        | cs => if s_omit s then Ok "" else obind (λ es, Ok (toc_html es)) (omapM (toc_entry jump) cs)
                        end.
  Proof. intros Hi. unfold toc_tmpl, need. by rewrite Hi. Qed.

  Lemma toc_step_inv n i s out : h !! i = Some s → ht n (CToc i) = Ok out →
    ((s_children s = [] ∨ s_omit s = true) ∧ out = "") ∨
    (s_omit s = false ∧ ∃ m es, omapM (toc_entry (ht m)) (s_children s) = Ok es ∧ out = toc_html es).
  Proof.
    intros Hi E. assert (∃ jump, toc_tmpl h jump i = Ok out ∧ ((∀ c, jump c = NoFuel) ∨ ∃ m, jump = ht m)) as (jump & E' & J).
    { destruct n as [|n]; cbn [html html_F] in E; eauto. }
    rewrite (toc_step _ _ _ Hi) in E'. destruct (s_children s) as [|c cs] eqn:Hc; [injection E' as <-; left; auto|].
    destruct (s_omit s); [injection E' as <-; left; auto|]. right. split; [done|].
    destruct (omapM _ _) as [es| | |] eqn:Ee; cbn [obind] in E'; try done. injection E' as <-.
    destruct J as [J|[m ->]]; [|eauto]. exfalso.
    apply omapM_Ok in Ee. inversion Ee as [|? ? ? ? He]; subst. unfold toc_entry in He.
    destruct (h !! c); [|done]. destruct (tag_url _ _ _); [|done]. destruct (number _ _); [|done]. destruct (strip_aux _); [|done].
    rewrite !J in He. discriminate.
  Qed.

  Lemma toc_woven i l : listing h follow i l → ∃ l', l = i :: l' ∧ ∀ n out, ht n (CToc i) = Ok out →
    ∃ es, Forall2 entry l' es ∧ weave es out.
  Proof.
    intros H.
    refine (listing_mut h follow (λ i l _, ∃ l', l = i :: l' ∧ ∀ n out, ht n (CToc i) = Ok out →
        ∃ es, Forall2 entry l' es ∧ weave es out)
      (λ cs l _, ∀ m es, omapM (toc_entry (ht m)) cs = Ok es → ∃ fs, Forall2 entry l fs ∧ weave fs (sconcat (map piece es)))
      _ _ _ i l H); clear i l H.
    - intros i s l' Hi Hl IH. exists l'. split; [done|]. intros n out E.
      destruct (toc_step_inv _ _ _ _ Hi E) as [[Ho ->]|(Ho & m & es & Ee & ->)].
      + assert (l' = []) as ->.
        { clear IH. unfold follow in Hl. destruct Ho as [Ho|Ho]; rewrite Ho in Hl.
          - destruct (negb _); inversion Hl; subst; done.
          - inversion Hl; subst. done. }
        exists []. split; [constructor|]. we.
      + unfold follow in IH. rewrite Ho in IH. cbn [negb] in IH. destruct (IH _ _ Ee) as (fs & F & Hw).
        exists fs. split; [done|]. unfold toc_html. do 6 wl.
        replace fs with (fs ++ []) by apply app_nil_r. apply woven_app; [exact scaffold_app|exact Hw|]. do 4 wl. we.
    - intros m es Ee. injection Ee as <-. exists []. split; [constructor|]. we.
    - intros c cs l1 l2 _ (l1' & -> & IHc) _ IHs m es Ee.
      apply omapM_Ok in Ee. inversion Ee as [|? e ? es' He Hes]; subst.
      destruct (IHs m es') as (fs & F & Hw).
      { clear -Hes. induction Hes as [|x y cs es Hx F IHF]; [done|].
        change (omapM (toc_entry (ht m)) (x :: cs)) with (obind (λ y, obind (λ ys, Ok (y :: ys)) (omapM (toc_entry (ht m)) cs)) (toc_entry (ht m) x)).
        by rewrite Hx, IHF. }
      unfold toc_entry in He.
      destruct (h !! c) as [x|] eqn:Hx; [|done]. destruct (tag_url h "html" (s_primary x)) as [u|] eqn:Hu; [|done].
      destruct (number h c) as [nu|] eqn:Hn; [|done]. destruct (strip_aux (s_title x)) as [t|] eqn:Ht; [|done].
      destruct (ht m t) as [sh| | |] eqn:Es; cbn [obind] in He; try done.
      destruct (ht m (CToc c)) as [sb| | |] eqn:Eb; cbn [obind] in He; try done. injection He as <-.
      destruct (IHc _ _ Eb) as (gs & G & Wg).
      exists ((("<a href=""" +:+ url_attr u +:+ """>" +:+ escape nu +:+ " " +:+ sh +:+ "</a>") :: gs) ++ fs). split.
      + cbn [app]. constructor; [|by apply Forall2_app].
        exists x, u, nu, t, m, sh. done.
      + cbn [map sconcat]. apply woven_app; [exact scaffold_app|by apply piece_woven|done].
  Qed.
End toc.
