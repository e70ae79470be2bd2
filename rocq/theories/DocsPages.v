(** Executing the templates of the documentation. *)
From Coq Require Import Ascii String Lia.
From stdpp Require Import base tactics relations functions strings list.
From Verif Require Import GoBase StrProofs Ast Content ContentProofs Section Render Html TextRender Templates Tmpl TmplSrc TmplEsc TmplExec
  TmplBundled TmplSpec TmplProofs RenderFuel HtmlProofs HtmlRender TmplHtml DocsTmpl Props_Refs SiteSpec.
Local Open Scope string_scope.
Local Open Scope list_scope.

(** ** The set of templates *)

Definition docs_trees : list (string * list node) := Eval vm_compute in default [] (definitions docs_sources).
Lemma docs_trees_eq : definitions docs_sources = Some docs_trees.
Proof. vm_compute. reflexivity. Qed.

Lemma associate_over ds : ∀ (s : tset (list node)), NoDup (map fst ds) → Forall (λ d, empty_tree d.2 = false) ds →
  ∀ n, fold_left (associate empty_tree) ds s n = match assoc_get n ds with Some t => Some t | None => s n end.
Proof.
  induction ds as [|[k t] ds IH]; intros s N H n; [done|]. cbn [fold_left map fst] in *.
  apply NoDup_cons in N as [Nk N]. apply Forall_cons in H as [He H]. cbn [snd] in He.
  assert (associate empty_tree s (k, t) = <[k:=Some t]> s) as ->.
  { unfold associate. cbn [fst snd]. by rewrite He. }
  rewrite IH by done. cbn [assoc_get]. destruct (String.eqb_spec k n) as [->|Hk].
  - destruct (assoc_get n ds) as [t'|] eqn:E; [|by rewrite fn_lookup_insert].
    exfalso. apply Nk. clear -E. induction ds as [|[k t] ds IH]; [done|]. cbn [assoc_get] in E. cbn [map fst].
    destruct (String.eqb_spec k n) as [->|_]; [apply elem_of_list_here|]. apply elem_of_list_further. auto.
  - by rewrite fn_lookup_insert_ne.
Qed.
Lemma docs_templates : templates bundled_html docs_sources = Some (fold_left (associate empty_tree) docs_trees bundled_html).
Proof. apply templates_defs, docs_trees_eq. Qed.
Lemma docs_set_get n : docs_set n = match assoc_get n docs_trees with Some t => Some t | None => bundled_html n end.
Proof.
  unfold docs_set. rewrite docs_templates.
  change (fold_left (associate empty_tree) docs_trees bundled_html n = match assoc_get n docs_trees with Some t => Some t | None => bundled_html n end).
  apply associate_over.
  - apply (bool_decide_unpack _). vm_compute. exact I.
  - assert (forallb (λ d : string * list node, negb (empty_tree d.2)) docs_trees = true) as F by (vm_compute; reflexivity).
    apply Forall_forall. intros d Hd. rewrite forallb_forall in F. specialize (F d (proj1 (elem_of_list_In _ _) Hd)). by destruct (empty_tree d.2).
Qed.

Definition docs_escaped : list (string * list node) :=
  Eval vm_compute in map (λ p : string * list node, (p.1, default [] (esc_tree p.2))) docs_trees.
Definition tree (n : string) : list node := default [] (assoc_get n docs_escaped).

Lemma docs_escaped_get n t : assoc_get n docs_escaped = Some t → ∃ t0, docs_set n = Some t0 ∧ esc_tree t0 = Some t.
Proof.
  rewrite docs_set_get.
  assert (docs_escaped = map (λ p : string * list node, (p.1, default [] (esc_tree p.2))) docs_trees ∧
    forallb (λ p : string * list node, match esc_tree p.2 with Some _ => true | None => false end) docs_trees = true) as [-> F].
  { split; vm_compute; reflexivity. }
  revert F. generalize docs_trees. intros l. induction l as [|[k t1] l IH]; [done|]. cbn [forallb map assoc_get fst snd]. intros [F1 F2]%andb_true_iff.
  destruct (String.eqb k n); [|auto]. intros [= <-]. exists t1. split; [done|]. by destruct (esc_tree t1).
Qed.

(** No style has a page template of its own. *)
Lemma docs_no_page st : docs_set (st +:+ "-page.tmpl") = None.
Proof.
  assert (∀ (l : list (string * list node)), forallb (λ p, negb (has_suffix "-page.tmpl" p.1)) l = true →
    assoc_get (st +:+ "-page.tmpl") l = None) as H.
  { intros l. induction l as [|[k t] l IH]; [done|]. cbn [forallb fst assoc_get]. intros [F1 F2]%andb_true_iff.
    destruct (String.eqb_spec k (st +:+ "-page.tmpl")) as [->|]; [|by apply IH].
    exfalso. revert F1. by rewrite has_suffix_app. }
  rewrite docs_set_get, bundled_html_get, !H; [done| |]; vm_compute; reflexivity.
Qed.

(** ** One level *)

Section one.
  Context (similar : string → string → bool) (broken : bool) (h : heap) (str : content → outcome error string).
  Context (R : content → rendered) (call : string → val → rendered).
  Context (Hdangling : ∀ j, h !! j = None → str (CSection j) = Panic).

  Notation ex t v := (exec similar broken h str "html" true R call t v).
  Notation en := (exec_node similar broken h str "html" true R call).
  Notation mem := (member similar broken h str).
  Notation ev := (eval similar broken h str "html" true R).
  Notation el := (exec_list similar broken h str "html" true R (exec_node similar broken h str "html" true R call)).

  Ltac side := first [reflexivity | apply con_vcon | done].
  Ltac step := first
    [ rewrite el_text | erewrite act_render by side | erewrite act_dot by side | erewrite act_var by side
    | erewrite act_str by side | rewrite el_nil ].
  Ltac start := match goal with |- ?l = _ =>
    match l with context [tree ?n] => let t := eval vm_compute in (tree n) in change (tree n) with t end end; unfold exec.
  Ltac fin := repeat match goal with |- context [obind _ (R ?x)] => destruct (R x); cbn [obind]; try done end; rewrite ?sapp_nil_r, ?sapp_assoc; done.

  Lemma t_wraps n pre post st b x ps : (n, (pre, post)) ∈ site_wraps →
    ex (tree (n +:+ ".tmpl")) (VCon (CStyled st b x ps)) = obind (λ s, Ok (pre +:+ s +:+ post)) (R x).
  Proof.
    intros H. unfold site_wraps in H. repeat (apply elem_of_cons in H as [[= -> -> ->]|H]; [start; repeat step; fin|]).
    by apply elem_of_nil in H.
  Qed.

  Lemma ev_partial e dot n : ev e dot [[OField ["Partial"]; OStr n]] = mem dot "Partial" [VStr n].
  Proof. apply obind_ret. Qed.
  Lemma ev_partial_render e dot n : ev e dot [[OField ["Partial"]; OStr n]; [OFunc "render"]] = obind (rend true R) (mem dot "Partial" [VStr n]).
  Proof.
    change (obind (λ v, obind (λ x, Ok x) (rend true R v)) (mem dot "Partial" [VStr n]) = obind (rend true R) (mem dot "Partial" [VStr n])).
    destruct (mem dot "Partial" [VStr n]); try done. apply obind_ret.
  Qed.

  Lemma t_columns st b x l : ex (tree "columns.tmpl") (VCon (CStyled st b x [("Columns", Some (CSeq l))])) =
    obind (λ t, obind (λ cs, Ok (site_columns t cs)) (omapM R l)) (R x).
  Proof.
    start. rewrite el_text. erewrite act_render by side. rewrite el_text.
    erewrite (el_each _ _ _ _ _ _ _ _ vcon R (λ _ s, nls +:+ "  <div class=""column"">" +:+ s +:+ "</div>" +:+ nls +:+ "  "));
      [|rewrite ev_partial; reflexivity|reflexivity|].
    - repeat step. cbn [obind]. destruct (R x); try done. cbn [obind]. destruct (omapM R l); try done. cbn [obind]. rewrite concat_from_map.
      unfold site_columns. rewrite ?sapp_nil_r, ?sapp_assoc. done.
    - intros i y. repeat step. fin.
  Qed.
  Lemma t_definition st b x y : ex (tree "definition.tmpl") (VCon (CStyled st b x [("Thumb", Some y)])) =
    obind (λ t, obind (λ c, Ok (site_definition t c)) (R x)) (R y).
  Proof.
    start. rewrite el_text, el_act, ev_partial_render.
    change (mem (VCon (CStyled st b x [("Thumb", Some y)])) "Partial" [VStr "Thumb"]) with (Ok (vcon y) : got). cbn [obind].
    change XText with (plain true). rewrite (put_rend str true R _ y) by apply con_vcon.
    destruct (R y); try done. cbn [obind]. rewrite el_text. change (plain true) with XText. erewrite act_render by side. repeat step. cbn [obind].
    by destruct (R x).
  Qed.
  Lemma t_frame st b x y : ex (tree "output-frame.tmpl") (VCon (CStyled st b x [("URL", Some y)])) =
    obind (λ s, Ok (site_frame s)) (R y).
  Proof.
    start. rewrite el_text, el_act, ev_partial_render.
    change (mem (VCon (CStyled st b x [("URL", Some y)])) "Partial" [VStr "URL"]) with (Ok (vcon y) : got). cbn [obind].
    unfold rend. rewrite con_vcon. destruct (R y); try done.
  Qed.
  Lemma t_splash i s : h !! i = Some s → ex (tree "splash.tmpl") (VSec i) = R (s_body s).
  Proof.
    intros Hi. start. erewrite act_render; [|eapply mem_sec; [exact Hi|reflexivity]|apply con_vcon]. rewrite el_nil. cbn [obind].
    destruct (R (s_body s)); try done. cbn [obind]. by rewrite sapp_nil_r.
  Qed.

  (** *** Pages *)

  Definition nav (i c : nat) : rendered :=
    need (h !! c) (λ x, need (contains h c i) (λ b, need (tag_url h "html" (s_primary x)) (λ u, need (strip_aux (s_title x)) (λ t,
      obind (λ s, Ok (nav_entry b u s)) (R t))))).

  Lemma ev_top e i f : ev e (VSec i) [[OField ["Top"; f]]] = obind (λ v, mem v f []) (mem (VSec i) "Top" []).
  Proof. apply obind_ret. Qed.
  Lemma ev_top_url e i : ev e (VSec i) [[OField ["Top"; "PrimaryTag"]]; [OFunc "url"]] =
    obind (λ v, match v with VTag t => want (tag_url h "html" t) VStr | _ => fails end)
      (obind (λ v, mem v "PrimaryTag" []) (mem (VSec i) "Top" [])).
  Proof.
    change (obind (λ v, obind (λ x, Ok x) (match v with VTag t => want (tag_url h "html" t) VStr | _ => fails end))
      (obind (λ v, mem v "PrimaryTag" []) (mem (VSec i) "Top" [])) =
      obind (λ v, match v with VTag t => want (tag_url h "html" t) VStr | _ => fails end)
      (obind (λ v, mem v "PrimaryTag" []) (mem (VSec i) "Top" []))).
    destruct (obind (λ v, mem v "PrimaryTag" []) (mem (VSec i) "Top" [])); try done. cbn [obind]. apply obind_ret.
  Qed.
  Lemma ev_contains e dot v : assoc_get "" e = Some v → ev e dot [[OField ["Contains"]; OVar "" []]] = mem dot "Contains" [v].
  Proof.
    intros E. unfold eval. cbn [eval_pipe eval_command]. unfold omapM. cbn [eval_arg]. rewrite E. cbn [members obind app]. apply obind_ret.
  Qed.

  Lemma t_page i s r rs : h !! i = Some s → top h i = Some r → h !! r = Some rs →
    ex (tree "page.tmpl") (VSec i) =
    text_of str (s_title s) (λ t, need (tag_url h "html" (s_primary rs)) (λ u, obind (λ ns, obind (λ b,
      Ok (site_page t (match s_parent s with None => true | Some _ => false end) u ns b)) (R (CSection i))) (omapM (nav i) (s_children rs)))).
  Proof.
    intros Hi Ht Hr. start. rewrite el_text, el_act.
    assert (ev [("", VSec i)] (VSec i) [[OField ["Title"; "String"]]] = text_val str (s_title s)) as ->.
    { change (obind (λ v, Ok v) (obind (λ v, mem v "String" []) (mem (VSec i) "Title" [])) = text_val str (s_title s)).
      assert (mem (VSec i) "Title" [] = Ok (vcon (s_title s))) as -> by by eapply mem_sec. cbn [obind].
      rewrite mem_vcon_string by done. apply obind_ret. }
    unfold text_val, text_of. destruct (str (s_title s)); try done. cbn [obind]. rewrite put_str. cbn [obind].
    rewrite el_text.
    erewrite el_if by (rewrite ev_not; erewrite mem_sec; [|exact Hi|reflexivity]; reflexivity).
    assert (mem (VSec i) "Top" [] = Ok (VSec r)) as Mt.
    { eapply mem_sec; [exact Hi|]. change (want (top h i) VSec = Ok (VSec r)). by rewrite Ht. }
    assert (mem (VSec r) "PrimaryTag" [] = Ok (VTag (s_primary rs))) as Mp by by eapply mem_sec.
    assert (mem (VSec r) "Children" [] = Ok (VList (map VSec (s_children rs)))) as Mc by by eapply mem_sec.
    assert (el (VSec i) [("", VSec i)] (if truth (VBool (negb (truth (vsec_opt (s_parent s))))) then [NText " top"] else []) =
      Ok (if match s_parent s with None => true | Some _ => false end then " top" else "")) as ->.
    { by destruct (s_parent s). }
    cbn [obind]. rewrite el_text, el_act, ev_top_url, Mt. cbn [obind]. rewrite Mp. cbn [obind].
    destruct (tag_url h "html" (s_primary rs)) as [u|]; [|done]. cbn [want obind need]. rewrite put_str. cbn [obind]. rewrite el_text.
    erewrite (el_each _ _ _ _ _ _ _ _ VSec (nav i) (λ _ s, s)); [|rewrite ev_top, Mt; exact Mc|reflexivity|].
    - rewrite el_text. erewrite act_dot by side. rewrite el_text, el_nil. cbn [obind].
      destruct (omapM (nav i) (s_children rs)) as [ns| | |]; try done. cbn [obind]. rewrite concat_from_map, list_fmap_id.
      destruct (R (CSection i)) as [b| | |]; try done.
    - intros k c. unfold nav. rewrite el_text. destruct (h !! c) as [x|] eqn:Hc; cbn [need].
      2:{ erewrite el_err; [done| |done]. cbn [exec_node]. erewrite ev_contains by reflexivity. by rewrite mem_dangling. }
      destruct (contains h c i) as [b|] eqn:Hb; cbn [need].
      2:{ erewrite el_err; [done| |done]. cbn [exec_node]. erewrite ev_contains by reflexivity. cbn [member]. rewrite Hc.
          change (section_member h str c x "Contains" [VSec i]) with (want (contains h c i) VBool). by rewrite Hb. }
      erewrite el_if.
      2:{ erewrite ev_contains by reflexivity. cbn [member]. rewrite Hc.
          change (section_member h str c x "Contains" [VSec i]) with (want (contains h c i) VBool). by rewrite Hb. }
      cbn [truth].
      assert (el (VSec c) (binds [] k (VSec c) [("", VSec i)]) (if b then [NText " class=""current"""] else []) =
        Ok (if b then " class=""current""" else "")) as -> by by destruct b.
      cbn [obind]. rewrite el_text, el_act. erewrite ev_url by by eapply mem_sec.
      destruct (tag_url h "html" (s_primary x)) as [v|]; [|done]. cbn [want obind need]. rewrite put_str. cbn [obind].
      rewrite el_text, el_act, ev_strip.
      assert (mem (VSec c) "Title" [] = Ok (vcon_opt (Some (s_title x)))) as -> by by eapply mem_sec.
      rewrite strip_render. cbn [base.mbind option_bind]. destruct (strip_aux (s_title x)) as [t|]; [|done]. cbn [need].
      rewrite el_text, el_nil. cbn [obind]. destruct (R t); try done.
  Qed.

  (** *** Sections *)

  Lemma t_section i s : h !! i = Some s → ex (tree "section.tmpl") (VSec i) =
    need (header_depth h i) (λ d,
      obind (λ num, obind (λ t, obind (λ b, obind (λ l, Ok (site_section d (t_name (s_primary s)) num t b l))
        (if s_split s then Ok None else obind (λ l, Ok (Some l)) (omapM (λ c, R (CSection c)) (s_children s))))
        (R (s_body s))) (R (s_title s)))
      (match s_parent s with
       | None => Ok None
       | Some _ => match tag_url h "html" (s_primary s), number h i with Some u, Some n => Ok (Some (u, n)) | _, _ => fails end
       end)).
  Proof.
    intros Hi. start. rewrite el_text, el_act, ev_depth.
    destruct (header_depth h i) as [d|] eqn:Hd; [|done]. cbn [want obind put show need].
    assert (1 ≤ d ≤ 6) as Hd'.
    { unfold header_depth in Hd. destruct (page_depth h i) as [k|]; [|done]. cbn [base.mbind option_bind] in Hd.
      injection Hd as <-. destruct (Nat.ltb_spec 6 (k + 1)); lia. }
    rewrite name_filter_dec by done. rewrite el_text, el_act.
    assert (mem (VSec i) "PrimaryTag" [] = Ok (VTag (s_primary s))) as Mp by by eapply mem_sec.
    assert (ev [("", VSec i)] (VSec i) [[OField ["PrimaryTag"; "Name"]]] = Ok (VStr (t_name (s_primary s)))) as ->.
    { change (obind (λ v, Ok v) (obind (λ v, mem v "Name" []) (mem (VSec i) "PrimaryTag" [])) = Ok (VStr (t_name (s_primary s)))).
      by rewrite Mp. }
    cbn [obind]. rewrite put_str. cbn [obind]. rewrite el_text.
    erewrite el_if by (rewrite ev_field; eapply mem_sec; [exact Hi|reflexivity]).
    set (N := match s_parent s with
       | None => Ok None
       | Some _ => match tag_url h "html" (s_primary s), number h i with Some u, Some n => Ok (Some (u, n)) | _, _ => fails end
       end : outcome rerr (option (string * string))).
    match goal with |- context [exec_list _ _ _ _ _ _ _ _ ?d ?e (if ?c then ?l else ?m)] =>
      assert (el d e (if c then l else m) = obind (λ num, Ok (match num with
        | Some (u, n) => "<span class=""section-number""><a href=""" +:+ url_attr u +:+ """>" +:+ escape n +:+ "</a> </span>"
        | None => ""
        end)) N) as -> end.
    { unfold N. destruct (s_parent s); cbn [vsec_opt truth]; [|done]. rewrite el_text, el_act. erewrite ev_url by exact Mp.
      destruct (tag_url h "html" (s_primary s)) as [u|]; [|done]. cbn [want obind]. rewrite put_str. cbn [obind].
      rewrite el_text, el_act, ev_field.
      assert (mem (VSec i) "Number" [] = want (number h i) VStr) as -> by by eapply mem_sec.
      destruct (number h i); [|done]. cbn [want obind]. rewrite put_str. done. }
    destruct N as [num| | |]; try done. cbn [obind].
    erewrite act_render; [|eapply mem_sec; [exact Hi|reflexivity]|apply con_vcon].
    destruct (R (s_title s)) as [t| | |]; try done. cbn [obind]. rewrite el_text, el_act, ev_depth, Hd. cbn [want obind put show].
    rewrite name_filter_dec by done. rewrite el_text.
    erewrite act_render; [|eapply mem_sec; [exact Hi|reflexivity]|apply con_vcon].
    destruct (R (s_body s)) as [b| | |]; try done. cbn [obind]. rewrite el_text.
    erewrite el_if by (rewrite ev_not; erewrite mem_sec; [|exact Hi|reflexivity]; reflexivity).
    rewrite el_nil. cbn [truth]. destruct (s_split s); cbn [negb].
    - rewrite el_nil. cbn [obind]. unfold site_section. rewrite ?sapp_nil_r, ?sapp_assoc. done.
    - rewrite el_text.
      erewrite (el_each _ _ _ _ _ _ _ _ VSec (λ c, R (CSection c)) (λ _ s, nls +:+ "    " +:+ s +:+ nls +:+ "  "));
        [|rewrite ev_field; eapply mem_sec; [exact Hi|reflexivity]|reflexivity|].
      + rewrite el_text, el_nil. cbn [obind]. destruct (omapM _ (s_children s)); try done. cbn [obind]. rewrite concat_from_map.
        unfold site_section. rewrite ?sapp_nil_r, ?sapp_assoc. done.
      + intros j x. repeat step. fin.
  Qed.
End one.
