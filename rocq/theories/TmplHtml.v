(** Executing the bundled HTML templates gives what Html.v says. *)
From Coq Require Import Ascii String Lia.
From stdpp Require Import base tactics relations functions strings list.
From Verif Require Import GoBase StrProofs Ast Content ContentProofs Section Render Html TextRender Templates Tmpl TmplSrc TmplEsc TmplExec
  TmplBundled TmplSpec TmplProofs RenderFuel HtmlProofs HtmlRender.
Local Open Scope string_scope.
Local Open Scope list_scope.

(** Html.v's rendering, one level. *)
Section one.
  Context (similar : string → string → bool) (broken : bool) (h : heap).
  Context (force : nat → option content) (str : content → outcome error string).

  Definition html_1 (rec jump : content → rendered) (c : content) : rendered :=
    match c with
    | CString s => Ok (escape s)
    | CSeq l => obind (λ ss, Ok (sconcat ss)) (omapM rec l)
    | CPara l => obind (λ ss, Ok ("<p>" +:+ sjoin " " ss +:+ "</p>")) (omapM rec l)
    | CPre l => obind (λ ss, Ok (sjoin nls ss)) (omapM rec l)
    | CRef sec name rc opt l => reference_tmpl similar broken h jump sec name rc opt l
    | CLink x t => obind (λ s, Ok ("<a href=""" +:+ url_attr t +:+ """>" +:+ s +:+ "</a>")) (rec x)
    | CSection i => visit_section h str jump i
    | CToc i => toc_tmpl h jump i
    | CStyled st b x ps =>
      match styled_wrap st (is_flow c) with
      | Some (pre, post) => obind (λ s, Ok (pre +:+ s +:+ post)) (rec x)
      | None =>
        if String.eqb st "string" then text_of str c (λ t, Ok (escape t))
        else if String.eqb st "raw-html" then text_of str c Ok
        else Err (RTemplate st)
      end
    | CTarget t _ _ _ => Ok ("<a id=""" +:+ escape t +:+ """></a>")
    | CImage p d => Ok ("<img src=""" +:+ url_attr p +:+ """ alt=""" +:+ escape d +:+ """ />")
    | CList l o => obind (λ ss, Ok (list_html o ss)) (omapM rec l)
    | CTable rows => obind (λ rs, Ok (table_html rs)) (omapM (λ row, omapM rec row) rows)
    | CDefs defs =>
      obind (λ ds, Ok (defs_html ds))
        (omapM (λ p : content * content, match p with (s, d) => obind (λ s, obind (λ d, Ok (s, d)) (rec d)) (rec s) end) defs)
    | CLazy _ t => match force t with Some x => jump x | None => Err RLazy end
    | CAux x => rec x
    end.
  Lemma html_F_1 jump c :
    html_F similar broken h force str jump c = html_1 (html_F similar broken h force str jump) jump c.
  Proof. by destruct c. Qed.

  Context (R : content → rendered) (call : string → val → rendered).
  Context (Rcall : ∀ i, call "toc.tmpl" (VSec i) = R (CToc i)).
  Notation ex t v := (exec similar broken h str "html" true R call t v).
  Definition tree (n : string) : list node := default [] (assoc_get n html_escaped).


  Notation en := (exec_node similar broken h str "html" true R call).
  Notation mem := (member similar broken h str).
  Notation ev := (eval similar broken h str "html" true R).
  Notation el := (exec_list similar broken h str "html" true R (exec_node similar broken h str "html" true R call)).

  Ltac side := first [reflexivity | apply con_vcon | done].
  Ltac step := first
    [ rewrite el_text | erewrite act_render by side | erewrite act_dot by side | erewrite act_var by side
    | erewrite act_str by side | rewrite el_nil ].
  Ltac start := match goal with |- ?l = _ =>
    match l with context [tree ?n] => let t := eval vm_compute in (tree n) in change (tree n) with t end end; unfold exec.
  Ltac fin := repeat match goal with |- context [obind _ (R ?x)] => destruct (R x); cbn [obind]; try done end; rewrite ?sapp_nil_r; done.

  Definition wrapped (st : string) (pre post : string) : Prop :=
    ∀ s b x ps, ex (tree (st +:+ ".tmpl")) (VCon (CStyled s b x ps)) = obind (λ s, Ok (pre +:+ s +:+ post)) (R x).
  Lemma t_bold : wrapped "bold" "<strong>" "</strong>".
  Proof. intros s b x ps. start. repeat step. fin. Qed.
  Lemma t_aside : wrapped "aside" "<blockquote class=""aside"">" "</blockquote>".
  Proof. intros s b x ps. start. repeat step. fin. Qed.
  Lemma t_inset : wrapped "inset" "<div style=""margin: 0 2em 1em"" class=""inset"">" "</div>".
  Proof. intros s b x ps. start. repeat step. fin. Qed.
  Lemma t_italic : wrapped "italic" "<em>" "</em>".
  Proof. intros s b x ps. start. repeat step. fin. Qed.
  Lemma t_larger : wrapped "larger" "<span style=""font-size: 120%"">" "</span>".
  Proof. intros s b x ps. start. repeat step. fin. Qed.
  Lemma t_smaller : wrapped "smaller" "<span style=""font-size: 80%"">" "</span>".
  Proof. intros s b x ps. start. repeat step. fin. Qed.
  Lemma t_strike : wrapped "strike" "<span style=""text-decoration: line-through"">" "</span>".
  Proof. intros s b x ps. start. repeat step. fin. Qed.
  Lemma t_subscript : wrapped "subscript" "<sub>" "</sub>".
  Proof. intros s b x ps. start. repeat step. fin. Qed.
  Lemma t_superscript : wrapped "superscript" "<sup>" "</sup>".
  Proof. intros s b x ps. start. repeat step. fin. Qed.
  Lemma t_verbatim st b x ps : ex (tree "verbatim.tmpl") (VCon (CStyled st b x ps)) =
    obind (λ s, Ok (if is_flow (CStyled st b x ps) then "<code>" +:+ s +:+ "</code>" else "<pre>" +:+ s +:+ "</pre>")) (R x).
  Proof.
    start. erewrite el_if by (rewrite ev_field; reflexivity). cbn [truth]. change (is_flow (CStyled st b x ps)) with (if b then false else is_flow x).
    destruct (if b then false else is_flow x); repeat step; fin.
  Qed.

  (** What the String method gives for anything that may be rendered. *)
  Context (Hstr : ∀ s, str (CString s) = Ok s) (Hdangling : ∀ j, h !! j = None → str (CSection j) = Panic).

  Lemma mem_string v c : con_of v = Some c → (∀ i, c = CSection i → v = VSec i) → mem v "String" [] = text_val str c.
  Proof.
    intros C N. destruct v; try done; injection C as <-.
    - done.
    - cbn [member]. destruct (h !! i) eqn:E; [done|]. unfold text_val. by rewrite (Hdangling _ E).
  Qed.
  Lemma mem_vcon_string c : mem (vcon c) "String" [] = text_val str c.
  Proof. apply mem_string; [apply con_vcon|]. by intros i ->. Qed.

  Lemma t_string v c : con_of v = Some c → (∀ i, c = CSection i → v = VSec i) →
    ex (tree "string.tmpl") v = text_of str c (λ t, Ok (escape t)).
  Proof.
    intros C N. start. rewrite el_act, ev_field, (mem_string v c C N). unfold text_val, text_of.
    destruct (str c); cbn [obind put show is_html]; try done. rewrite el_nil. cbn [obind]. by rewrite sapp_nil_r.
  Qed.
  Lemma t_raw v c : con_of v = Some c → ex (tree "raw-html.tmpl") v = text_of str c Ok.
  Proof.
    intros C. start. rewrite el_act.
    assert (ev [("", v)] v [[ODot]; [OFunc "rawHTML"]] = match str c with Ok s => Ok (VHtml s) | NoFuel => NoFuel | _ => fails end) as ->.
    { change (obind (λ x, Ok x) (match con_of v with
                 | Some c => match str c with Ok s => Ok (VHtml s) | NoFuel => NoFuel | _ => fails end
                 | None => fails
                 end) = match str c with Ok s => Ok (VHtml s) | NoFuel => NoFuel | _ => fails end). rewrite C. apply obind_ret. }
    unfold text_of. destruct (str c); cbn [obind put show is_html]; try done. rewrite el_nil. cbn [obind]. by rewrite sapp_nil_r.
  Qed.

  Lemma put_str x s : put str true x (VStr s) = match x with
    | XText | XRcdata | XAttr => Ok (escape s)
    | XRaw => Ok s
    | XName => Ok (name_filter s)
    | XUrl => Ok (url_attr s)
    | XUrlPath => Ok (escape (url_normalize s))
    | XUrlQuery => Ok (escape (url_escape s))
    end.
  Proof. by destruct x. Qed.

  Lemma t_sequence l : ex (tree "sequence.tmpl") (VCon (CSeq l)) = obind (λ ss, Ok (sconcat ss)) (omapM R l).
  Proof.
    start. erewrite (el_each _ _ _ _ _ _ _ _ vcon R (λ _ s, s)); [|rewrite ev_field; reflexivity|reflexivity|].
    - rewrite el_nil. destruct (omapM R l); try done. cbn [obind]. by rewrite concat_from_map, list_fmap_id, sapp_nil_r.
    - intros i x. repeat step. fin.
  Qed.
  Lemma t_para l : ex (tree "paragraph.tmpl") (VCon (CPara l)) = obind (λ ss, Ok ("<p>" +:+ sjoin " " ss +:+ "</p>")) (omapM R l).
  Proof.
    start. rewrite el_text.
    erewrite (el_each _ _ _ _ _ _ _ _ vcon R (λ i s, (if Nat.eqb i 0 then "" else " ") +:+ s)); [|rewrite ev_dot; reflexivity|reflexivity|].
    - rewrite el_text, el_nil. cbn [obind]. destruct (omapM R l); try done. cbn [obind]. by rewrite concat_from_join, sapp_nil_r.
    - intros i x. erewrite el_if by (eapply ev_var; reflexivity). cbn [truth].
      destruct (Nat.eqb i 0); cbn [negb]; repeat step; fin.
  Qed.
  Lemma t_pre l : ex (tree "preformatted.tmpl") (VCon (CPre l)) = obind (λ ss, Ok (sjoin nls ss)) (omapM R l).
  Proof.
    start.
    erewrite (el_each _ _ _ _ _ _ _ _ vcon R (λ i s, (if Nat.eqb i 0 then "" else nls) +:+ s)); [|rewrite ev_dot; reflexivity|reflexivity|].
    - rewrite el_nil. cbn [obind]. destruct (omapM R l); try done. cbn [obind]. by rewrite concat_from_join, sapp_nil_r.
    - intros i x. erewrite el_if by (eapply ev_var; reflexivity). cbn [truth].
      destruct (Nat.eqb i 0); cbn [negb]; repeat step; fin.
  Qed.
  Lemma t_link x t : ex (tree "link.tmpl") (VCon (CLink x t)) =
    obind (λ s, Ok ("<a href=""" +:+ url_attr t +:+ """>" +:+ s +:+ "</a>")) (R x).
  Proof. start. repeat step. rewrite put_str. cbn [obind]. fin. Qed.
  Lemma t_target t l ti x : ex (tree "target.tmpl") (VCon (CTarget t l ti x)) = Ok ("<a id=""" +:+ escape t +:+ """></a>").
  Proof. start. repeat step. rewrite put_str. cbn [obind]. fin. Qed.
  Lemma t_image p d : ex (tree "image.tmpl") (VCon (CImage p d)) =
    Ok ("<img src=""" +:+ url_attr p +:+ """ alt=""" +:+ escape d +:+ """ />").
  Proof. start. repeat step. rewrite !put_str. cbn [obind]. fin. Qed.
  Lemma t_list l o : ex (tree "list.tmpl") (VCon (CList l o)) = obind (λ ss, Ok (list_html o ss)) (omapM R l).
  Proof.
    start. erewrite el_if by (rewrite ev_field; reflexivity). rewrite el_text.
    erewrite (el_each _ _ _ _ _ _ _ _ vcon R (λ _ s, nls +:+ "  <li>" +:+ s +:+ "</li>" +:+ nls)); [|rewrite ev_field; reflexivity|reflexivity|].
    - rewrite el_text. erewrite el_if by (rewrite ev_field; reflexivity). cbn [truth].
      destruct o; repeat step; cbn [obind]; (destruct (omapM R l); try done); cbn [obind]; rewrite concat_from_map; unfold list_html;
        rewrite ?sapp_assoc; done.
    - intros i x. repeat step. fin.
  Qed.
  Lemma t_table rows : ex (tree "table.tmpl") (VCon (CTable rows)) = obind (λ rs, Ok (table_html rs)) (omapM (λ row, omapM R row) rows).
  Proof.
    start. rewrite el_text.
    erewrite (el_each _ _ _ _ _ _ _ _ (λ r, VList (map vcon r)) (λ row, omapM R row)
      (λ _ row, nls +:+ "  <tr>" +:+ nls +:+ "    " +:+
        sconcat (map (λ s, nls +:+ "    <td>" +:+ s +:+ "</td>" +:+ nls +:+ "    ") row) +:+
        nls +:+ "  </tr>" +:+ nls +:+ "  ")); [|rewrite ev_field; reflexivity|reflexivity|].
    - repeat step. cbn [obind]. destruct (omapM _ rows); try done. cbn [obind]. rewrite concat_from_map. done.
    - intros i row. rewrite el_text.
      erewrite (el_each _ _ _ _ _ _ _ _ vcon R (λ _ s, nls +:+ "    <td>" +:+ s +:+ "</td>" +:+ nls +:+ "    ")); [|rewrite ev_dot; reflexivity|reflexivity|].
      + repeat step. cbn [obind]. destruct (omapM R row); try done. cbn [obind]. rewrite concat_from_map. done.
      + intros j x. repeat step. fin.
  Qed.
  Lemma t_defs defs : ex (tree "definitions.tmpl") (VCon (CDefs defs)) =
    obind (λ ds, Ok (defs_html ds))
      (omapM (λ p : content * content, match p with (s, d) => obind (λ s, obind (λ d, Ok (s, d)) (R d)) (R s) end) defs).
  Proof.
    start. rewrite el_text.
    erewrite (el_each _ _ _ _ _ _ _ _ (λ p, VDef p.1 p.2)
      (λ p : content * content, match p with (s, d) => obind (λ s, obind (λ d, Ok (s, d)) (R d)) (R s) end)
      (λ _ d, match d with (s, d) =>
        nls +:+ "  <dt>" +:+ s +:+ "</dt>" +:+ nls +:+ "    <dd>" +:+ d +:+ "</dd>" +:+ nls +:+ "  " end)); [|rewrite ev_dot; reflexivity|reflexivity|].
    - repeat step. cbn [obind]. destruct (omapM _ defs); try done. cbn [obind]. rewrite concat_from_map. done.
    - intros i [s d]. cbn [fst snd]. repeat step. cbn [obind]. fin.
  Qed.

  Lemma mem_tag sec name rc opt l : mem (VCon (CRef sec name rc opt l)) "Tag" [] =
    match ref_tag similar broken h sec name opt l with
    | Ok t => Ok (match t with Some t => VTag t | None => VNil end)
    | Err e => Err (RTag e)
    | NoFuel => NoFuel
    | Panic => fails
    end.
  Proof. done. Qed.
  Lemma mem_display sec name rc opt l : mem (VCon (CRef sec name rc opt l)) "Display" [] =
    match ref_display similar broken h sec name rc opt l with
    | Ok d => Ok (vcon_opt d)
    | Err e => Err (RTag e)
    | NoFuel => NoFuel
    | Panic => fails
    end.
  Proof. done. Qed.
  Lemma ev_url' e dot f : ev e dot [[OField [f]]; [OFunc "url"]] =
    obind (λ v, match v with VTag t => want (tag_url h "html" t) VStr | _ => fails end) (mem dot f []).
  Proof.
    change (obind (λ v, obind (λ x, Ok x) (match v with VTag t => want (tag_url h "html" t) VStr | _ => fails end)) (mem dot f []) =
      obind (λ v, match v with VTag t => want (tag_url h "html" t) VStr | _ => fails end) (mem dot f [])).
    destruct (mem dot f []); try done. cbn [obind]. apply obind_ret.
  Qed.
  Lemma ev_url e dot f v : mem dot f [] = Ok (VTag v) → ev e dot [[OField [f]]; [OFunc "url"]] = want (tag_url h "html" v) VStr.
  Proof. intros E. by rewrite ev_url', E. Qed.
  Lemma strip_render d : obind (put str true XText) (obind (rend true R) (obind stripped (Ok (vcon_opt d)))) =
    need (d ≫= strip_aux) R.
  Proof.
    destruct d as [c|]; [|done]. cbn [vcon_opt obind base.mbind option_bind].
    assert (stripped (vcon c) = want (strip_aux c) vcon) as ->.
    { unfold stripped. by rewrite con_vcon. }
    destruct (strip_aux c) as [c'|]; [|done]. cbn [want obind need].
    exact (put_rend str true R (vcon c') c' (con_vcon c')).
  Qed.

  Lemma t_reference sec name rc opt l : ex (tree "reference.tmpl") (VCon (CRef sec name rc opt l)) =
    reference_tmpl similar broken h R sec name rc opt l.
  Proof.
    start. unfold reference_tmpl.
    destruct (ref_tag similar broken h sec name opt l) as [o|er| |] eqn:Et.
    - erewrite el_if by (rewrite ev_field, mem_tag, Et; reflexivity).
      destruct o as [t|]; cbn [truth].
      + rewrite el_nil. cbn [obind]. rewrite el_text, el_act.
        erewrite ev_url by (rewrite mem_tag, Et; reflexivity).
        destruct (tag_url h "html" t) as [u|]; [|done]. cbn [want obind]. rewrite put_str. cbn [obind].
        rewrite el_text, el_act, ev_strip, mem_display.
        rewrite (ref_display_tag similar broken h sec name rc opt l t Et).
        assert (ref_display similar broken h sec name rc opt l = Ok (match rc with Some d => Some d | None => t_title t end)) as ->.
        { unfold ref_display. rewrite Et. by destruct rc. }
        rewrite strip_render.
        destruct (_ ≫= strip_aux) as [d|]; [|done]. cbn [need]. rewrite el_text, el_nil. cbn [obind].
        destruct (R d); try done. cbn [obind]. rewrite ?sapp_nil_r, ?sapp_assoc. done.
      + rewrite el_nil, el_act, ev_strip.
        change (mem (VCon (CRef sec name rc opt l)) "Content" []) with (Ok (vcon_opt rc) : got).
        rewrite strip_render. rewrite el_nil. destruct (need _ R); try done. cbn [obind]. by rewrite !sapp_nil_r.
    - apply el_err; [|done]. cbn [exec_node]. by rewrite ev_field, mem_tag, Et.
    - apply el_err; [|done]. cbn [exec_node]. by rewrite ev_field, mem_tag, Et.
    - cbn [exec_list exec_node]. by rewrite ev_field, mem_tag, Et.
  Qed.

  Lemma mem_dangling i f args : h !! i = None → mem (VSec i) f args = fails.
  Proof. intros E. cbn [member]. by rewrite E. Qed.
  Lemma mem_sec i s f v : h !! i = Some s → section_member h str i s f [] = v → mem (VSec i) f [] = v.
  Proof. intros E <-. cbn [member]. by rewrite E. Qed.

  Lemma en_toc e dot : en e dot (NCall "toc.tmpl" (Some [[ODot]])) = call "toc.tmpl" dot.
  Proof. done. Qed.

  Lemma t_toc i : ex (tree "toc.tmpl") (VSec i) = toc_tmpl h R i.
  Proof.
    start. unfold toc_tmpl. destruct (h !! i) as [s|] eqn:Hi; cbn [need].
    2:{ apply el_err; [|done]. cbn [exec_node]. by rewrite ev_and_not, !mem_dangling. }
    assert (mem (VSec i) "Children" [] = Ok (VList (map VSec (s_children s)))) as Mc by by eapply mem_sec.
    assert (mem (VSec i) "OmitChildrenFromTableOfContents" [] = Ok (VBool (s_omit s))) as Mo by by eapply mem_sec.
    erewrite el_if.
    2:{ rewrite ev_and_not, Mc, Mo. cbn [obind truth].
        instantiate (1 := if truth (VList (map VSec (s_children s))) then VBool (negb (s_omit s)) else VList (map VSec (s_children s))).
        by destruct (s_children s). }
    rewrite el_nil. cbn [obind]. destruct (s_children s) as [|c0 cs] eqn:Hc; [done|]. cbn [map truth].
    destruct (s_omit s); cbn [negb truth]; [done|]. rewrite <- Hc in *. clear Hc c0 cs.
    rewrite el_text.
    erewrite (el_each _ _ _ _ _ _ _ _ VSec
      (λ c, match h !! c with
            | None => Err RNil
            | Some cs =>
              match tag_url h "html" (s_primary cs), number h c, strip_aux (s_title cs) with
              | Some u, Some n, Some t =>
                obind (λ t, obind (λ sub, Ok (u, n, t, sub)) (R (CToc c))) (R t)
              | _, _, _ => Err RNil
              end
            end)
      (λ _ e, match e with (u, n, t, sub) =>
        nls +:+ "    <li>" +:+ nls +:+ "      " +:+
        ("<a href=""" +:+ url_attr u +:+ """>" +:+ escape n +:+ " " +:+ t +:+ "</a>") +:+ nls +:+ nls +:+
        "      " +:+ sub +:+ nls +:+ "    </li>" +:+ nls +:+ "  " end)); [|rewrite ev_field; exact Mc|reflexivity|].
    - rewrite el_text, el_nil. cbn [obind]. destruct (omapM _ (s_children s)); try done. cbn [obind]. rewrite concat_from_map.
      rewrite ?sapp_nil_r. done.
    - intros j c. rewrite el_text, el_act. destruct (h !! c) as [x|] eqn:Hx.
      2:{ by rewrite ev_url', mem_dangling. }
      erewrite ev_url by by eapply mem_sec. destruct (tag_url h "html" (s_primary x)) as [u|]; [|done].
      cbn [want obind]. rewrite put_str. cbn [obind]. rewrite el_text, el_act, ev_field.
      assert (mem (VSec c) "Number" [] = want (number h c) VStr) as -> by by eapply mem_sec.
      destruct (number h c) as [n|]; [|done]. cbn [want obind]. rewrite put_str. cbn [obind]. rewrite el_text, el_act, ev_strip.
      assert (mem (VSec c) "Title" [] = Ok (vcon_opt (Some (s_title x)))) as -> by by eapply mem_sec.
      rewrite strip_render. cbn [base.mbind option_bind]. destruct (strip_aux (s_title x)) as [t|]; [|done]. cbn [need].
      destruct (R t) as [ts| | |]; try done. cbn [obind]. rewrite el_text. cbn [exec_list]. rewrite en_toc, Rcall.
      destruct (R (CToc c)); try done. cbn [obind]. rewrite ?sapp_nil_r, ?sapp_assoc. done.
  Qed.

  Lemma name_filter_dec d : 1 ≤ d ≤ 6 → name_filter (dec d) = dec d.
  Proof. intros H. do 7 (destruct d as [|d]; [first [lia|reflexivity]|]). lia. Qed.
  Lemma ev_depth e i : ev e (VSec i) [[OFunc "headerDepth"; ODot]] = want (header_depth h i) VInt.
  Proof. apply obind_ret. Qed.

  Lemma t_section i s : h !! i = Some s → ex (tree "section.tmpl") (VSec i) = section_tmpl h R i.
  Proof.
    intros Hi. start. unfold section_tmpl. rewrite Hi. cbn [need]. rewrite el_text, el_act, ev_depth.
    destruct (header_depth h i) as [d|] eqn:Hd; [|done]. cbn [want obind put show].
    assert (1 ≤ d ≤ 6) as Hd'.
    { unfold header_depth in Hd. destruct (page_depth h i) as [k|]; [|done]. cbn [base.mbind option_bind] in Hd.
      injection Hd as <-. destruct (Nat.ltb_spec 6 (k + 1)); lia. }
    rewrite name_filter_dec by done. rewrite el_text, el_act.
    assert (ev [("", VSec i)] (VSec i) [[OField ["PrimaryTag"; "Name"]]] = Ok (VStr (t_name (s_primary s)))) as ->.
    { change (obind (λ v, Ok v) (obind (λ v, mem v "Name" []) (mem (VSec i) "PrimaryTag" [])) = Ok (VStr (t_name (s_primary s)))).
      assert (mem (VSec i) "PrimaryTag" [] = Ok (VTag (s_primary s))) as -> by by eapply mem_sec. done. }
    cbn [obind]. rewrite put_str. cbn [obind]. rewrite el_text.
    erewrite el_if by (rewrite ev_field; eapply mem_sec; [exact Hi|reflexivity]).
    assert (el (VSec i) [("", VSec i)] (if truth (vsec_opt (s_parent s)) then [NText "<span class=""section-number"">";
        NAct XText [[OField ["Number"]]]; NText " </span>"] else []) =
      match s_parent s with
      | None => Ok ""
      | Some _ => match number h i with Some n => Ok ("<span class=""section-number"">" +:+ escape n +:+ " </span>") | None => fails end
      end) as ->.
    { destruct (s_parent s); cbn [vsec_opt truth]; [|done]. rewrite el_text, el_act, ev_field.
      assert (mem (VSec i) "Number" [] = want (number h i) VStr) as -> by by eapply mem_sec.
      destruct (number h i); [|done]. cbn [want obind]. rewrite put_str. done. }
    assert (s_parent s = None → number h i = Some "") as Hn.
    { intros E. unfold number. destruct h as [|x h'] eqn:Eh; [done|]. cbn [fuel_of length gofix]. unfold number_F at 1.
      rewrite Hi. cbn [base.mbind option_bind]. by rewrite E. }
    assert (match s_parent s with
      | None => Ok ""
      | Some _ => match number h i with Some n => Ok ("<span class=""section-number"">" +:+ escape n +:+ " </span>") | None => fails end
      end = match number h i with
            | Some n => Ok (match (match s_parent s with Some _ => Some n | None => None end) with
                            | Some n => "<span class=""section-number"">" +:+ escape n +:+ " </span>" | None => "" end)
            | None => fails end) as ->.
    { destruct (s_parent s); [by destruct (number h i)|]. by rewrite Hn. }
    destruct (number h i) as [n|]; [|done]. cbn [obind].
    erewrite act_render; [|eapply mem_sec; [exact Hi|reflexivity]|apply con_vcon].
    destruct (R (s_title s)) as [t| | |]; try done. cbn [obind]. rewrite el_text, el_act, ev_depth, Hd. cbn [want obind put show].
    rewrite name_filter_dec by done. rewrite el_text.
    erewrite act_render; [|eapply mem_sec; [exact Hi|reflexivity]|apply con_vcon].
    destruct (R (s_body s)) as [b| | |]; try done. cbn [obind]. rewrite el_text.
    erewrite el_if by (rewrite ev_not; erewrite mem_sec; [|exact Hi|reflexivity]; reflexivity).
    rewrite el_nil. cbn [truth]. destruct (s_split s); cbn [negb].
    - rewrite el_nil. cbn [obind]. unfold section_html. rewrite ?sapp_nil_r, ?sapp_assoc. done.
    - rewrite el_text.
      erewrite (el_each _ _ _ _ _ _ _ _ VSec (λ c, R (CSection c)) (λ _ s, nls +:+ "    " +:+ s +:+ nls +:+ "  "));
        [|rewrite ev_field; eapply mem_sec; [exact Hi|reflexivity]|reflexivity|].
      + rewrite el_text, el_nil. cbn [obind]. destruct (omapM _ (s_children s)); try done. cbn [obind]. rewrite concat_from_map.
        unfold section_html. rewrite ?sapp_nil_r, ?sapp_assoc. done.
      + intros j x. repeat step. fin.
  Qed.

  Lemma t_page i s : h !! i = Some s → ex (tree "page.tmpl") (VSec i) = page_tmpl h str R i.
  Proof.
    intros Hi. start. unfold page_tmpl. rewrite Hi. cbn [need]. rewrite el_text, el_act.
    assert (ev [("", VSec i)] (VSec i) [[OField ["Title"; "String"]]] = text_val str (s_title s)) as ->.
    { change (obind (λ v, Ok v) (obind (λ v, mem v "String" []) (mem (VSec i) "Title" [])) = text_val str (s_title s)).
      assert (mem (VSec i) "Title" [] = Ok (vcon (s_title s))) as -> by by eapply mem_sec. cbn [obind].
      by rewrite mem_vcon_string; apply obind_ret. }
    unfold text_val, text_of. destruct (str (s_title s)); try done. cbn [obind]. rewrite put_str. cbn [obind].
    rewrite el_text. erewrite act_dot by side. rewrite el_text, el_nil. cbn [obind].
    by destruct (R (CSection i)).
  Qed.

  (** *** Templates that are not meant for the data *)

  Definition style_names : list string :=
    ["aside"; "bold"; "inset"; "italic"; "larger"; "smaller"; "strike"; "subscript"; "superscript"; "verbatim"; "string"; "raw-html"].
  Definition other_names : list string :=
    ["definitions"; "image"; "link"; "list"; "page"; "paragraph"; "preformatted"; "reference"; "section"; "sequence"; "table"; "target"; "toc"].
  Lemma names_known st : st ∈ style_names ++ other_names ∨ assoc_get (st +:+ ".tmpl") html_escaped = None.
  Proof.
    destruct (decide (st ∈ style_names ++ other_names)) as [H|H]; [by left|right].
    assert (Forall (λ p : string * list node, ∃ n, n ∈ style_names ++ other_names ∧ p.1 = n +:+ ".tmpl") html_escaped) as F.
    { apply Forall_forall. intros p Hp.
      assert (p.1 ∈ map (λ n, n +:+ ".tmpl") (style_names ++ other_names)) as Hin.
      { apply (elem_of_list_fmap_1 fst) in Hp. revert Hp.
        change (fst <$> html_escaped) with (map fst html_escaped).
        assert (forallb (λ x, bool_decide (x ∈ map (λ n, n +:+ ".tmpl") (style_names ++ other_names))) (map fst html_escaped) = true) as E by (vm_compute; reflexivity).
        rewrite forallb_forall in E. intros Hp. apply elem_of_list_In in Hp. apply E in Hp. by apply bool_decide_eq_true in Hp. }
      apply elem_of_list_fmap in Hin as (n & -> & Hn). by exists n. }
    clear -H F. induction F as [|[k t] l (n & Hn & E) _ IH]; [done|]. cbn [assoc_get fst] in *.
    destruct (String.eqb_spec k (st +:+ ".tmpl")) as [->|]; [|done].
    exfalso. apply H. by apply sapp_inj_r in E as ->.
  Qed.

  Lemma styled_wrong n st b x ps : n ∈ other_names → ex (tree (n +:+ ".tmpl")) (VCon (CStyled st b x ps)) = Err RNil.
  Proof. intros H. unfold other_names in H. repeat (apply elem_of_cons in H as [->|H]; [start; reflexivity|]). by apply elem_of_nil in H. Qed.

  Definition no_sections : list string :=
    ["aside"; "bold"; "inset"; "italic"; "larger"; "smaller"; "strike"; "subscript"; "superscript"; "verbatim";
     "definitions"; "image"; "link"; "list"; "paragraph"; "preformatted"; "reference"; "sequence"; "table"; "target"].
  Lemma section_wrong n i s : h !! i = Some s → n ∈ no_sections → ex (tree (n +:+ ".tmpl")) (VSec i) = Err RNil.
  Proof.
    intros Hi H.
    assert (∀ f v, section_member h str i s f [] = v → mem (VSec i) f [] = v) as M by (intros f v; by apply mem_sec).
    unfold no_sections in H. repeat (apply elem_of_cons in H as [->|H]; [start|]); [..|by apply elem_of_nil in H].
    1-9: by rewrite el_text, el_act, ev_field_render, (M "Content" fails).
    - erewrite el_if by (rewrite ev_field; apply (M "IsFlow"); reflexivity).
      change (truth (VBool (is_flow (CSection i)))) with false. cbv iota.
      by rewrite el_text, el_act, ev_field_render, (M "Content" fails).
    - done.
    - rewrite el_text. erewrite act_str by (apply (M "Path"); reflexivity). rewrite put_str. cbn [obind].
      by rewrite el_text, el_act, ev_field, (M "Description" fails).
    - by rewrite el_text, el_act, ev_field, (M "Target" fails).
    - apply el_err; [|done]. cbn [exec_node]. by rewrite ev_field, (M "Ordered" fails).
    - done.
    - done.
    - apply el_err; [|done]. cbn [exec_node]. by rewrite ev_field, (M "Tag" fails).
    - apply el_err; [|done]. cbn [exec_node]. by rewrite ev_field, (M "Contents" fails).
    - rewrite el_text. erewrite el_err; [done| |done]. cbn [exec_node]. by rewrite ev_field, (M "Rows" fails).
    - by rewrite el_text, el_act, ev_field, (M "TagName" fails).
  Qed.

  (** *** All of them *)

  Definition named (name : string) (v : val) : rendered :=
    match assoc_get name html_escaped with None => Err (RTemplate name) | Some t => ex t v end.
  Lemma named_tree n v t : assoc_get n html_escaped = Some t → named n v = ex (tree n) v.
  Proof. unfold named, tree. by intros ->. Qed.
  Ltac name := unfold named; match goal with |- context [assoc_get ?n html_escaped] =>
    let t := eval vm_compute in (assoc_get n html_escaped) in
    change (assoc_get n html_escaped) with (Some (tree n)); cbv iota beta end.

  Lemma visit_styled st b x ps : like (named (st +:+ ".tmpl") (VCon (CStyled st b x ps))) (html_1 R R (CStyled st b x ps)).
  Proof.
    destruct (names_known st) as [H|H].
    - apply elem_of_app in H as [H|H].
      + unfold style_names in H. repeat (apply elem_of_cons in H as [->|H]); [..|by apply elem_of_nil in H]; name; apply like_eq.
        * apply t_aside.
        * apply t_bold.
        * apply t_inset.
        * apply t_italic.
        * apply t_larger.
        * apply t_smaller.
        * apply t_strike.
        * apply t_subscript.
        * apply t_superscript.
        * rewrite t_verbatim. unfold html_1, styled_wrap. cbn [String.eqb Ascii.eqb Bool.eqb]. by destruct (is_flow _).
        * apply t_string; [done|by intros].
        * by apply t_raw.
      + pose proof (styled_wrong st st b x ps H) as E.
        unfold other_names in H. repeat (apply elem_of_cons in H as [->|H]); [..|by apply elem_of_nil in H]; name; rewrite E; done.
    - unfold named. rewrite H. unfold html_1.
      assert (styled_wrap st (is_flow (CStyled st b x ps)) = None ∧ String.eqb st "string" = false ∧ String.eqb st "raw-html" = false) as (-> & -> & ->); [|done].
      assert (∀ n, n ∈ style_names → String.eqb st n = false) as N.
      { intros n Hn. destruct (String.eqb_spec st n) as [->|]; [|done]. exfalso. revert H.
        unfold style_names in Hn. repeat (apply elem_of_cons in Hn as [->|Hn]; [done|]). by apply elem_of_nil in Hn. }
      unfold styled_wrap. rewrite !N by (apply (bool_decide_unpack _); vm_compute; done). done.
  Qed.

  Lemma visit_sec i s : h !! i = Some s →
    like (named ((if String.eqb (s_style s) "" then "section" else s_style s) +:+ ".tmpl") (VSec i)) (visit_section h str R i).
  Proof.
    intros Hi. unfold visit_section. rewrite Hi. cbn [need].
    destruct (String.eqb_spec (s_style s) "") as [->|Ne].
    { name. cbn [String.eqb Ascii.eqb Bool.eqb orb]. apply like_eq. by eapply t_section. }
    destruct (names_known (s_style s)) as [H|H].
    - revert H. generalize (s_style s). intros st H.
      assert (st ∈ no_sections ∨ st ∈ ["section"; "page"; "toc"; "string"; "raw-html"]) as [H'|H'].
      { revert H. assert (Forall (λ st, st ∈ no_sections ∨ st ∈ ["section"; "page"; "toc"; "string"; "raw-html"]) (style_names ++ other_names)) as F.
        { apply (bool_decide_unpack _). vm_compute. done. }
        rewrite Forall_forall in F. apply F. }
      + pose proof (section_wrong st i s Hi H') as E.
        unfold no_sections in H'. repeat (apply elem_of_cons in H' as [->|H']); [..|by apply elem_of_nil in H']; name; rewrite E; done.
      + repeat (apply elem_of_cons in H' as [->|H']); [..|by apply elem_of_nil in H']; name; cbn [String.eqb Ascii.eqb Bool.eqb orb]; apply like_eq.
        * by eapply t_section.
        * by eapply t_page.
        * apply t_toc.
        * apply t_string; [done|by intros ? [= ->]].
        * by apply t_raw.
    - unfold named. rewrite H.
      assert (∀ n, n ∈ style_names ++ other_names → String.eqb (s_style s) n = false) as N.
      { intros n Hn. destruct (String.eqb_spec (s_style s) n) as [E|]; [|done]. exfalso. revert H. rewrite E. clear -Hn.
        unfold style_names, other_names in Hn. cbn [app] in Hn. repeat (apply elem_of_cons in Hn as [->|Hn]; [done|]). by apply elem_of_nil in Hn. }
      destruct (String.eqb_spec (s_style s) "") as [|_]; [done|].
      rewrite !N by (apply (bool_decide_unpack _); vm_compute; done). done.
  Qed.

  Lemma visit_one c :
    match c with
    | CLazy _ _ | CAux _ => True
    | _ => like (match template_of h c with Some (name, v) => named (name +:+ ".tmpl") v | None => fails end) (html_1 R R c)
    end.
  Proof.
    destruct c; [..|done|done].
    all: try (cbn [template_of]; name; apply like_eq).
    - erewrite t_string; [|done|by intros]. unfold text_of. by rewrite Hstr.
    - apply t_sequence.
    - apply t_para.
    - apply t_pre.
    - apply t_reference.
    - apply t_link.
    - cbn [template_of]. destruct (h !! s) as [x|] eqn:E; cbn [base.mbind option_bind].
      + by apply visit_sec.
      + unfold html_1, visit_section. rewrite E. done.
    - apply t_toc.
    - apply visit_styled.
    - apply t_target.
    - apply t_image.
    - apply t_list.
    - apply t_table.
    - apply t_defs.
  Qed.
End one.
