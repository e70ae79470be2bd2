(** Executing the bundled text templates gives what TextRender.v says. *)
From Coq Require Import Ascii String Lia.
From stdpp Require Import base tactics relations functions strings list.
From Verif Require Import GoBase StrProofs Ast Content ContentProofs Section Render Html TextRender Templates Tmpl TmplSrc TmplEsc TmplExec
  TmplBundled TmplSpec TmplProofs TmplHtml TmplFuel RenderFuel HtmlProofs HtmlRender.
Local Open Scope string_scope.
Local Open Scope list_scope.

(** TextRender.v's rendering, one level. *)
Section one.
  Context (similar : string → string → bool) (broken : bool) (h : heap).
  Context (force : nat → option content) (str : content → outcome error string) (ext : string).

  Definition text_1 (rec jump : content → rendered) (c : content) : rendered :=
    match c with
    | CString s => Ok s
    | CSeq l => obind (λ ss, Ok (sconcat ss)) (omapM rec l)
    | CPara l => obind (λ ss, Ok (sjoin " " ss +:+ nls +:+ nls)) (omapM rec l)
    | CPre l => obind (λ ss, Ok (sjoin nls ss)) (omapM rec l)
    | CSection i => visit_section_text h str jump i
    | CToc i => toc_text_tmpl h jump i
    | CStyled st b x ps =>
      if String.eqb st "inset" then obind (λ s, Ok ("    " +:+ join_lines "    " s)) (rec x)
      else if String.eqb st "string" then text_of str c Ok
      else Err (RTemplate st)
    | CRef _ _ _ _ _ => Err (RTemplate "reference")
    | CLink _ _ => Err (RTemplate "link")
    | CTarget _ _ _ _ => Err (RTemplate "target")
    | CImage _ _ => Err (RTemplate "image")
    | CList _ _ => Err (RTemplate "list")
    | CTable _ => Err (RTemplate "table")
    | CDefs _ => Err (RTemplate "definitions")
    | CLazy _ t => match force t with Some x => jump x | None => Err RLazy end
    | CAux x => rec x
    end.
  Lemma text_F_1 jump c : text_F h force str jump c = text_1 (text_F h force str jump) jump c.
  Proof. by destruct c. Qed.

  Context (R : content → rendered) (call : string → val → rendered).
  Context (Rcall : ∀ i, call "toc.tmpl" (VSec i) = R (CToc i)).
  Notation ex t v := (exec similar broken h str ext false R call t v).
  Definition ttree (n : string) : list node := default [] (assoc_get n text_trees).

  Notation en := (exec_node similar broken h str ext false R call).
  Notation mem := (member similar broken h str).
  Notation ev := (eval similar broken h str ext false R).
  Notation el := (exec_list similar broken h str ext false R (exec_node similar broken h str ext false R call)).

  Ltac side := first [reflexivity | apply con_vcon | done].
  Ltac step := first
    [ rewrite el_text | erewrite (act_render similar broken h str ext false) by side
    | erewrite (act_dot similar broken h str ext false) by side | erewrite (act_var similar broken h str ext false) by side
    | rewrite el_nil ].
  Ltac start := match goal with |- ?l = _ =>
    match l with context [ttree ?n] => let t := eval vm_compute in (ttree n) in change (ttree n) with t end end; unfold exec.
  Ltac fin := repeat match goal with |- context [obind _ (R ?x)] => destruct (R x); cbn [obind]; try done end; rewrite ?sapp_nil_r; done.

  Context (Hstr : ∀ s, str (CString s) = Ok s) (Hdangling : ∀ j, h !! j = None → str (CSection j) = Panic).

  Lemma x_string v c : con_of v = Some c → (∀ i, c = CSection i → v = VSec i) →
    ex (ttree "string.tmpl") v = text_of str c Ok.
  Proof.
    intros C N. start. rewrite el_act, ev_field. erewrite mem_string by done. unfold text_val, text_of.
    destruct (str c); cbn [obind put show is_html]; try done. rewrite el_nil. cbn [obind]. by rewrite sapp_nil_r.
  Qed.
  Lemma x_inset st b x ps : ex (ttree "inset.tmpl") (VCon (CStyled st b x ps)) =
    obind (λ s, Ok ("    " +:+ join_lines "    " s)) (R x).
  Proof.
    start. rewrite el_text, el_act.
    assert (ev [("", VCon (CStyled st b x ps))] (VCon (CStyled st b x ps)) [[OField ["Content"]]; [OFunc "render"]; [OFunc "joinLines"; OStr "    "]] =
      obind (λ s, Ok (VStr (join_lines "    " s))) (R x)) as ->.
    { change (obind (λ v, obind (λ v, obind (λ x, Ok x) (match v with VStr s => Ok (VStr (join_lines "    " s)) | _ => fails end)) (rend false R v))
        (Ok (vcon x)) = obind (λ s, Ok (VStr (join_lines "    " s))) (R x)).
      cbn [obind]. unfold rend. rewrite con_vcon. by destruct (R x). }
    destruct (R x); try done. cbn [obind put show]. rewrite el_nil. cbn [obind]. by rewrite sapp_nil_r.
  Qed.
  Lemma x_sequence l : ex (ttree "sequence.tmpl") (VCon (CSeq l)) = obind (λ ss, Ok (sconcat ss)) (omapM R l).
  Proof.
    start. erewrite (el_each _ _ _ _ _ _ _ _ vcon R (λ _ s, s)); [|rewrite ev_field; reflexivity|reflexivity|].
    - rewrite el_nil. destruct (omapM R l); try done. cbn [obind]. by rewrite concat_from_map, list_fmap_id, sapp_nil_r.
    - intros i x. repeat step. fin.
  Qed.
  Lemma x_para l : ex (ttree "paragraph.tmpl") (VCon (CPara l)) = obind (λ ss, Ok (sjoin " " ss +:+ nls +:+ nls)) (omapM R l).
  Proof.
    start.
    erewrite (el_each _ _ _ _ _ _ _ _ vcon R (λ i s, (if Nat.eqb i 0 then "" else " ") +:+ s)); [|rewrite ev_dot; reflexivity|reflexivity|].
    - rewrite el_text, el_act. change (ev [("", VCon (CPara l))] (VCon (CPara l)) [[OStr ""]]) with (Ok (VStr "") : got).
      cbn [obind put show]. rewrite el_nil. cbn [obind]. destruct (omapM R l); try done. cbn [obind]. by rewrite concat_from_join.
    - intros i x. erewrite el_if by (eapply ev_var; reflexivity). cbn [truth].
      destruct (Nat.eqb i 0); cbn [negb]; repeat step; fin.
  Qed.
  Lemma x_pre l : ex (ttree "preformatted.tmpl") (VCon (CPre l)) = obind (λ ss, Ok (sjoin nls ss)) (omapM R l).
  Proof.
    start.
    erewrite (el_each _ _ _ _ _ _ _ _ vcon R (λ i s, (if Nat.eqb i 0 then "" else nls) +:+ s)); [|rewrite ev_dot; reflexivity|reflexivity|].
    - rewrite el_nil. cbn [obind]. destruct (omapM R l); try done. cbn [obind]. by rewrite concat_from_join, sapp_nil_r.
    - intros i x. erewrite el_if by (eapply ev_var; reflexivity). cbn [truth].
      destruct (Nat.eqb i 0); cbn [negb]; repeat step; fin.
  Qed.

  Lemma strip_render_t d : obind (put str false XRaw) (obind (rend false R) (obind stripped (Ok (vcon_opt d)))) =
    need (d ≫= strip_aux) R.
  Proof.
    destruct d as [c|]; [|done]. cbn [vcon_opt obind base.mbind option_bind].
    assert (stripped (vcon c) = want (strip_aux c) vcon) as ->.
    { unfold stripped. by rewrite con_vcon. }
    destruct (strip_aux c) as [c'|]; [|done]. cbn [want obind need].
    exact (put_rend str false R (vcon c') c' (con_vcon c')).
  Qed.
  Lemma x_en_toc e dot : en e dot (NCall "toc.tmpl" (Some [[ODot]])) = call "toc.tmpl" dot.
  Proof. done. Qed.
  Lemma put_raw s : put str false XRaw (VStr s) = Ok s.
  Proof. done. Qed.

  Lemma x_toc i : ex (ttree "toc.tmpl") (VSec i) = toc_text_tmpl h R i.
  Proof.
    start. unfold toc_text_tmpl. destruct (h !! i) as [s|] eqn:Hi; cbn [need].
    2:{ apply el_err; [|done]. cbn [exec_node]. by rewrite ev_and_not, !mem_dangling. }
    assert (mem (VSec i) "Children" [] = Ok (VList (map VSec (s_children s)))) as Mc by by eapply mem_sec.
    assert (mem (VSec i) "OmitChildrenFromTableOfContents" [] = Ok (VBool (s_omit s))) as Mo by by eapply mem_sec.
    erewrite el_if.
    2:{ rewrite ev_and_not, Mc, Mo. cbn [obind truth].
        instantiate (1 := if truth (VList (map VSec (s_children s))) then VBool (negb (s_omit s)) else VList (map VSec (s_children s))).
        by destruct (s_children s). }
    rewrite el_nil. cbn [obind]. destruct (s_children s) as [|c0 cs] eqn:Hc; [done|]. cbn [map truth].
    destruct (s_omit s); cbn [negb truth]; [done|]. rewrite <- Hc in *. clear Hc c0 cs.
    rewrite el_text.
    erewrite (el_each _ _ _ _ _ _ _ _ VSec
      (λ c, match h !! c with
            | None => Err RNil
            | Some cs =>
              match number h c, strip_aux (s_title cs) with
              | Some n, Some t => obind (λ t, obind (λ sub, Ok (n, t, sub)) (R (CToc c))) (R t)
              | _, _ => Err RNil
              end
            end)
      (λ _ e, match e with (n, t, sub) => nls +:+ n +:+ " " +:+ t +:+ nls +:+ nls +:+ sub +:+ nls end));
      [|rewrite ev_field; exact Mc|reflexivity|].
    - rewrite el_text, el_nil. cbn [obind]. destruct (omapM _ (s_children s)); try done. cbn [obind]. rewrite concat_from_map.
      rewrite ?sapp_nil_r. done.
    - intros j c. rewrite el_text, el_act, ev_field. destruct (h !! c) as [x|] eqn:Hx.
      2:{ by rewrite mem_dangling. }
      assert (mem (VSec c) "Number" [] = want (number h c) VStr) as -> by by eapply mem_sec.
      destruct (number h c) as [n|]; [|done]. cbn [want obind]. rewrite put_raw. cbn [obind]. rewrite el_text, el_act, ev_strip.
      assert (mem (VSec c) "Title" [] = Ok (vcon_opt (Some (s_title x)))) as -> by by eapply mem_sec.
      rewrite strip_render_t. cbn [base.mbind option_bind]. destruct (strip_aux (s_title x)) as [t|]; [|done]. cbn [need].
      destruct (R t) as [ts| | |]; try done. cbn [obind]. rewrite el_text. cbn [exec_list]. rewrite x_en_toc, Rcall.
      by destruct (R (CToc c)).
  Qed.

  Lemma x_section i s : h !! i = Some s → ex (ttree "section.tmpl") (VSec i) = section_text_tmpl h R i.
  Proof.
    intros Hi. start. unfold section_text_tmpl. rewrite Hi. cbn [need].
    erewrite el_if by (rewrite ev_field; eapply mem_sec; [exact Hi|reflexivity]).
    assert (el (VSec i) [("", VSec i)] (if truth (vsec_opt (s_parent s)) then [NAct XRaw [[OField ["Number"]]]; NText " "] else []) =
      match (match s_parent s with Some _ => n ← number h i; Some (Some n) | None => Some None end) with
      | Some o => Ok (match o with Some n => n +:+ " " | None => "" end)
      | None => fails
      end) as ->.
    { destruct (s_parent s); cbn [vsec_opt truth]; [|done]. rewrite el_act, ev_field.
      assert (mem (VSec i) "Number" [] = want (number h i) VStr) as -> by by eapply mem_sec.
      destruct (number h i); [|done]. cbn [want obind]. rewrite put_raw. done. }
    destruct (match s_parent s with Some _ => _ | None => _ end) as [o|]; [|done]. cbn [need obind].
    erewrite (act_render similar broken h str ext false); [|eapply mem_sec; [exact Hi|reflexivity]|apply con_vcon].
    destruct (R (s_title s)) as [t| | |]; try done. cbn [obind].
    erewrite (act_render similar broken h str ext false); [|eapply mem_sec; [exact Hi|reflexivity]|apply con_vcon].
    destruct (R (s_body s)) as [b| | |]; try done. cbn [obind]. rewrite el_text.
    erewrite el_if by (rewrite ev_not; erewrite mem_sec; [|exact Hi|reflexivity]; reflexivity).
    rewrite el_nil. cbn [truth]. destruct (s_split s); cbn [negb].
    - rewrite el_nil. cbn [obind]. unfold section_text. rewrite ?sapp_nil_r, ?sapp_assoc. done.
    - rewrite el_text.
      erewrite (el_each _ _ _ _ _ _ _ _ VSec (λ c, R (CSection c)) (λ _ s, nls +:+ s +:+ nls));
        [|rewrite ev_field; eapply mem_sec; [exact Hi|reflexivity]|reflexivity|].
      + rewrite el_text, el_nil. cbn [obind]. destruct (omapM _ (s_children s)); try done. cbn [obind]. rewrite concat_from_map.
        unfold section_text. rewrite ?sapp_nil_r, ?sapp_assoc. done.
      + intros j x. repeat step. fin.
  Qed.

  Lemma x_page i s : h !! i = Some s → ex (ttree "page.tmpl") (VSec i) = page_text_tmpl h str R i.
  Proof.
    intros Hi. start. unfold page_text_tmpl. rewrite Hi. cbn [need]. rewrite el_act.
    assert (ev [("", VSec i)] (VSec i) [[OField ["Title"; "String"]]] = text_val str (s_title s)) as ->.
    { change (obind (λ v, Ok v) (obind (λ v, mem v "String" []) (mem (VSec i) "Title" [])) = text_val str (s_title s)).
      assert (mem (VSec i) "Title" [] = Ok (vcon (s_title s))) as -> by by eapply mem_sec. cbn [obind].
      by rewrite mem_vcon_string; [apply obind_ret|]. }
    unfold text_val, text_of. destruct (str (s_title s)); try done. cbn [obind]. rewrite put_raw. cbn [obind].
    rewrite el_text. erewrite (act_dot similar broken h str ext false) by side. rewrite el_nil. cbn [obind].
    destruct (R (CSection i)); try done. cbn [obind]. by rewrite sapp_nil_r.
  Qed.

  Definition text_names : list string := ["inset"; "string"; "page"; "paragraph"; "preformatted"; "section"; "sequence"; "toc"].
  Lemma tnames_known st : st ∈ text_names ∨ assoc_get (st +:+ ".tmpl") text_trees = None.
  Proof.
    destruct (decide (st ∈ text_names)) as [H|H]; [by left|right].
    assert (Forall (λ p : string * list node, ∃ n, n ∈ text_names ∧ p.1 = n +:+ ".tmpl") text_trees) as F.
    { apply Forall_forall. intros p Hp.
      assert (p.1 ∈ map (λ n, n +:+ ".tmpl") text_names) as Hin.
      { apply (elem_of_list_fmap_1 fst) in Hp. revert Hp.
        change (fst <$> text_trees) with (map fst text_trees).
        assert (forallb (λ x, bool_decide (x ∈ map (λ n, n +:+ ".tmpl") text_names)) (map fst text_trees) = true) as E by (vm_compute; reflexivity).
        rewrite forallb_forall in E. intros Hp. apply elem_of_list_In in Hp. apply E in Hp. by apply bool_decide_eq_true in Hp. }
      apply elem_of_list_fmap in Hin as (n & -> & Hn). by exists n. }
    clear -H F. induction F as [|[k t] l (n & Hn & E) _ IH]; [done|]. cbn [assoc_get fst] in *.
    destruct (String.eqb_spec k (st +:+ ".tmpl")) as [->|]; [|done].
    exfalso. apply H. by apply sapp_inj_r in E as ->.
  Qed.

  Definition tnamed (name : string) (v : val) : rendered :=
    match assoc_get name text_trees with None => Err (RTemplate name) | Some t => ex t v end.
  Ltac name := unfold tnamed; match goal with |- context [assoc_get ?n text_trees] =>
    change (assoc_get n text_trees) with (Some (ttree n)); cbv iota beta end.

  Lemma x_styled_wrong n st b x ps : n ∈ ["page"; "paragraph"; "preformatted"; "section"; "sequence"; "toc"] →
    ex (ttree (n +:+ ".tmpl")) (VCon (CStyled st b x ps)) = Err RNil.
  Proof. intros H. repeat (apply elem_of_cons in H as [->|H]; [start; reflexivity|]). by apply elem_of_nil in H. Qed.

  Lemma x_visit_styled st b x ps : like (tnamed (st +:+ ".tmpl") (VCon (CStyled st b x ps))) (text_1 R R (CStyled st b x ps)).
  Proof.
    destruct (tnames_known st) as [H|H].
    - assert (st = "inset" ∨ st = "string" ∨ st ∈ ["page"; "paragraph"; "preformatted"; "section"; "sequence"; "toc"]) as [->|[->|H']].
      { unfold text_names in H. apply elem_of_cons in H as [->|H]; [by left|]. apply elem_of_cons in H as [->|H]; [by right; left|]. by right; right. }
      + name. apply like_eq, x_inset.
      + name. apply like_eq, x_string; [done|by intros].
      + pose proof (x_styled_wrong st st b x ps H') as E. clear H.
        repeat (apply elem_of_cons in H' as [->|H']); [..|by apply elem_of_nil in H']; name; rewrite E; done.
    - unfold tnamed. rewrite H. unfold text_1.
      assert (String.eqb st "inset" = false ∧ String.eqb st "string" = false) as (-> & ->); [|done].
      split; apply String.eqb_neq; intros ->; done.
  Qed.

  Lemma x_section_wrong n i s : h !! i = Some s → n ∈ ["inset"; "paragraph"; "preformatted"; "sequence"] →
    ex (ttree (n +:+ ".tmpl")) (VSec i) = Err RNil.
  Proof.
    intros Hi H.
    assert (∀ f v, section_member h str i s f [] = v → mem (VSec i) f [] = v) as M by (intros f v; by apply mem_sec).
    repeat (apply elem_of_cons in H as [->|H]; [start|]); [..|by apply elem_of_nil in H].
    - rewrite el_text, el_act.
      assert (ev [("", VSec i)] (VSec i) [[OField ["Content"]]; [OFunc "render"]; [OFunc "joinLines"; OStr "    "]] = fails) as ->; [|done].
      change (obind (λ v, obind (λ v, obind (λ x, Ok x) (match v with VStr s => Ok (VStr (join_lines "    " s)) | _ => fails end)) (rend false R v))
        (mem (VSec i) "Content" []) = fails). by rewrite (M "Content" fails).
    - done.
    - done.
    - apply el_err; [|done]. cbn [exec_node]. by rewrite ev_field, (M "Contents" fails).
  Qed.

  Lemma x_visit_sec i s : h !! i = Some s →
    like (tnamed ((if String.eqb (s_style s) "" then "section" else s_style s) +:+ ".tmpl") (VSec i)) (visit_section_text h str R i).
  Proof.
    intros Hi. unfold visit_section_text. rewrite Hi. cbn [need]. cbv zeta.
    destruct (String.eqb_spec (s_style s) "") as [->|Ne].
    { name. cbn [String.eqb Ascii.eqb Bool.eqb orb]. apply like_eq. by eapply x_section. }
    destruct (tnames_known (s_style s)) as [H|H].
    - revert H. generalize (s_style s). intros st H.
      assert (st ∈ ["inset"; "paragraph"; "preformatted"; "sequence"] ∨ st ∈ ["section"; "page"; "toc"; "string"]) as [H'|H'].
      { revert H. assert (Forall (λ st, st ∈ ["inset"; "paragraph"; "preformatted"; "sequence"] ∨ st ∈ ["section"; "page"; "toc"; "string"]) text_names) as F.
        { apply (bool_decide_unpack _). vm_compute. done. }
        rewrite Forall_forall in F. apply F. }
      + pose proof (x_section_wrong st i s Hi H') as E.
        repeat (apply elem_of_cons in H' as [->|H']); [..|by apply elem_of_nil in H']; name; rewrite E; done.
      + repeat (apply elem_of_cons in H' as [->|H']); [..|by apply elem_of_nil in H']; name; cbn [String.eqb Ascii.eqb Bool.eqb orb]; apply like_eq.
        * by eapply x_section.
        * by eapply x_page.
        * apply x_toc.
        * apply x_string; [done|by intros ? [= ->]].
    - unfold tnamed. rewrite H.
      assert (∀ n, n ∈ text_names → String.eqb (s_style s) n = false) as N.
      { intros n Hn. destruct (String.eqb_spec (s_style s) n) as [E|]; [|done]. exfalso. revert H. rewrite E. clear -Hn.
        unfold text_names in Hn. repeat (apply elem_of_cons in Hn as [->|Hn]; [done|]). by apply elem_of_nil in Hn. }
      destruct (String.eqb_spec (s_style s) "") as [|_]; [done|].
      rewrite !N by (apply (bool_decide_unpack _); vm_compute; done). done.
  Qed.

  Lemma x_visit_one c :
    match c with
    | CLazy _ _ | CAux _ => True
    | _ => like (match template_of h c with Some (name, v) => tnamed (name +:+ ".tmpl") v | None => fails end) (text_1 R R c)
    end.
  Proof.
    destruct c; [..|done|done].
    all: cbn [template_of].
    - name. apply like_eq. erewrite x_string; [|done|by intros]. unfold text_of. by rewrite Hstr.
    - name. apply like_eq, x_sequence.
    - name. apply like_eq, x_para.
    - name. apply like_eq, x_pre.
    - done.
    - done.
    - destruct (h !! s) as [x|] eqn:E; cbn [base.mbind option_bind].
      + by apply x_visit_sec.
      + unfold text_1, visit_section_text. rewrite E. done.
    - name. apply like_eq, x_toc.
    - apply x_visit_styled.
    - done.
    - done.
    - done.
    - done.
    - done.
  Qed.
End one.
