(** C78: where the values of an HTML template stand, and how they are written there. *)
From Coq Require Import Ascii String Lia.
From stdpp Require Import base tactics strings list.
From Verif Require Import GoBase StrProofs Content Section Render Html HtmlSpec HtmlProofs UrlSpec UrlProofs Tmpl TmplEsc TmplExec HtmlRead HtmlReadProofs.
Local Open Scope string_scope. Local Open Scope list_scope.

(** The escaper takes every action of a template to stand where the text before it
    says, on every way through the template, and leaves the text as it is. *)
Theorem actions_placed t t' : placed InText t t' InText → esc_tree t = Some t'.
Proof. apply placed_tree. Qed.
Print Assumptions actions_placed.

(** A template is not executed that has a value in a script, a style sheet or an
    attribute that holds one; that has ways that come to different ends; or that does
    not end in text. *)
Theorem misplaced_refused t : (wrong InText t ∨ ∃ t' c, placed InText t t' c ∧ c ≠ InText) → esc_tree t = None.
Proof. intros [H|(t' & c & H & Hc)]; [by apply wrong_tree|by eapply open_tree]. Qed.
Print Assumptions misplaced_refused.

Theorem misplaced_not_executed similar broken h force str ext tmpls n name t data :
  tmpls name = Some t → (wrong InText t ∨ ∃ t' c, placed InText t t' c ∧ c ≠ InText) →
  run similar broken h force str ext true tmpls (S n) (TExec name data) = Err RNil.
Proof. intros Ht H. cbn [run]. rewrite Ht, (misplaced_refused t H). done. Qed.
Print Assumptions misplaced_not_executed.

(** What is written is read back as the value (HtmlSpec.v is a tokenizer of HTML). A
    value that is neither HTML nor a URL already, with the text [s]: *)
Definition plain_value (str : content → outcome error string) (v : val) (s : string) : Prop :=
  show str true v = Ok s ∧ is_html v = false ∧ is_url v = false.

Theorem value_in_text str v s x : plain_value str v s → x = XText ∨ x = XRcdata →
  ∃ out, put str true x v = Ok out ∧ read SText out = Some (SText, map TChar (list_ascii_of_string (unnul s))).
Proof.
  intros (Hs & Hh & Hu) Hx. exists (escape s). split; [|apply read_escape]. destruct Hx as [->| ->]; cbn [put]; by rewrite Hs, Hh.
Qed.
Print Assumptions value_in_text.

Theorem value_in_attribute str v s n l a w : plain_value str v s →
  ∃ out, put str true XAttr v = Ok out ∧ read (SValue n l a w) out = Some (SValue n l a (w +:+ unnul s), []).
Proof.
  intros (Hs & Hh & Hu). exists (escape s). split; [|apply read_escape_value]. cbn [put]. by rewrite Hh, Hs.
Qed.
Print Assumptions value_in_attribute.

(** At the beginning of a URL: a URL that runs no script, the value itself if it is one
    already but for characters that do not belong in URLs. *)
Theorem value_as_url str v s n l a : plain_value str v s →
  ∃ out u, put str true XUrl v = Ok out ∧ read (SValue n l a "") out = Some (SValue n l a u, []) ∧ harmless u ∧
           u = url_normalize (if is_safe_url s then s else "#ZgotmplZ").
Proof.
  intros (Hs & Hh & Hu). exists (url_attr s), (url_normalize (url_filter s)). split_and!.
  - cbn [put]. by rewrite Hs, Hu.
  - unfold url_attr. rewrite read_escape_value. by rewrite unnul_normalize.
  - apply harmless_url.
  - done.
Qed.
Print Assumptions value_as_url.

(** Within the query of a URL: one component, which reads as the value. *)
Definition unreserved (c : ascii) : bool := is_lower c || is_upper c || is_digit c || existsb (Ascii.eqb c) ["-"; "."; "_"; "~"]%char.
Lemma url_escape_reads s : unescape (url_escape s) = s.
Proof.
  induction s as [|c s IH]; [done|]. cbn [url_escape]. destruct (is_lower c || is_upper c || is_digit c || _) eqn:E.
  - change (String c "" +:+ url_escape s) with (String c (url_escape s)). rewrite unescape_keep; [by rewrite IH|]. destruct (Ascii.eqb_spec c "%") as [->|]; [|done]. vm_compute in E. discriminate E.
  - rewrite unescape_percent. by rewrite IH.
Qed.
Lemma url_escape_chars s : sforall (λ c, unreserved c || Ascii.eqb c "%") (url_escape s) = true.
Proof.
  induction s as [|c s IH]; [done|]. cbn [url_escape]. rewrite sforall_app, IH, andb_true_r. fold (unreserved c). destruct (unreserved c) eqn:E.
  - cbn [sforall]. by rewrite E.
  - destruct c as [[] [] [] [] [] [] [] []]; vm_compute; reflexivity.
Qed.
Theorem value_in_query str v s n l a w : plain_value str v s →
  ∃ out q, put str true XUrlQuery v = Ok out ∧ read (SValue n l a w) out = Some (SValue n l a (w +:+ q), []) ∧
           unescape q = s ∧ sforall (λ c, unreserved c || Ascii.eqb c "%") q = true.
Proof.
  intros (Hs & Hh & Hu). exists (escape (url_escape s)), (url_escape s). split_and!.
  - cbn [put]. by rewrite Hs, Hu.
  - rewrite read_escape_value. assert (unnul (url_escape s) = url_escape s) as ->; [|done].
    pose proof (url_escape_chars s) as H. induction (url_escape s) as [|c r IH]; [done|]. cbn [sforall] in H. apply andb_true_iff in H as [Hc Hr].
    cbn [unnul]. rewrite (IH Hr). destruct (Ascii.eqb_spec c "000") as [->|]; [vm_compute in Hc; discriminate Hc|done].
  - apply url_escape_reads.
  - apply url_escape_chars.
Qed.
Print Assumptions value_in_query.

(** In the name of an element or attribute: lower-case letters and digits, and no
    attribute that could do harm. *)
Theorem value_in_name str v s : plain_value str v s →
  ∃ out, put str true XName v = Ok out ∧
    (out = "ZgotmplZ" ∨
     (out = smap lower s ∧ out ≠ "" ∧ sforall (λ c, is_lower c || is_digit c) out = true ∧ is_attr out ANone ∧
      out ∉ ["type"; "value"; "rel"; "content"; "srcdoc"; "form"; "method"; "sandbox"; "charset"])).
Proof.
  intros (Hs & Hh & Hu). exists (name_filter s). split; [cbn [put]; by rewrite Hs|]. unfold name_filter. cbv zeta. destruct (_ && _) eqn:E; [right|by left].
  rewrite !andb_true_iff, negb_true_iff in E. destruct E as [[[E1 E2] E3] E4]. split; [done|]. split; [intros Hx; rewrite Hx in E1; done|]. split; [done|].
  assert (low (smap lower s) = smap lower s) as Hlow.
  { unfold low. clear -E4. revert E4. generalize (smap lower s). intros r0 E4. induction r0 as [|c r IH]; [done|]. cbn [sforall] in E4. apply andb_true_iff in E4 as [Hc Hr]. cbn [smap]. rewrite (IH Hr). f_equal.
    unfold lower. destruct (is_upper c) eqn:U; [|done]. exfalso. revert Hc U. destruct c as [[] [] [] [] [] [] [] []]; vm_compute; congruence. }
  split.
  - assert (∃ k, is_attr (smap lower s) k) as [k Hk].
    { destruct (local_total (low (smap lower s))) as [m Hm]. destruct (attr_kind (low (smap lower s))) eqn:K.
      - exists ANone. constructor; intros Hx.
        + pose proof (is_attr_kind (smap lower s) AUrl (ia_url _ Hx)) as Hy. unfold low in K. congruence.
        + pose proof (is_attr_kind (smap lower s) AOther (ia_code _ Hx)) as Hy. unfold low in K. congruence.
      - rewrite Hlow in K. rewrite K in E2. done.
      - rewrite Hlow in K. rewrite K in E2. done. }
    pose proof (is_attr_kind _ _ Hk) as Hx. unfold low in Hlow. rewrite Hlow in Hx. rewrite Hx in E2. by destruct k.
  - intros H. rewrite negb_true_iff in E3. assert (smap lower s ∈ unsafe_attrs) as Hin; [|apply mem_in in Hin; congruence].
    assert (∀ x, x ∈ ["type"; "value"; "rel"; "content"; "srcdoc"; "form"; "method"; "sandbox"; "charset"] → x ∈ unsafe_attrs) as Hsub; [|by apply Hsub].
    apply Forall_forall. apply (bool_decide_unpack _). vm_compute. exact I.
Qed.
Print Assumptions value_in_name.

(** ** Examples *)

Ltac decided := apply (bool_decide_unpack _); vm_compute; exact I.
Ltac word := eexists _, _; split; [reflexivity|]; split; [reflexivity|]; repeat (apply tr_char; [reflexivity|]); apply tr_nil.
Ltac element := first [apply ie_title; reflexivity|apply ie_script; reflexivity|apply ie_other; decided].
Ltac ended := first [exact I|left; decided|right; left; reflexivity|right; right; reflexivity].
Lemma attr_word_all w : w ≠ "" → Forall (λ c, ¬ html_blank c ∧ c ∉ ["="; ">"; "<"; "'"; """"]%char) (list_ascii_of_string w) → attr_word w.
Proof. intros Hw H. split; [done|]. by apply Forall_forall. Qed.
Global Instance html_blank_dec c : Decision (html_blank c).
Proof. unfold html_blank. apply _. Defined.
Lemma no_has p s : contains_str p s = false → ¬ has p s.
Proof. intros H. rewrite <- contains_has, H. done. Qed.
Lemma no_begins p s : has_prefix p s = false → ¬ begins p s.
Proof. intros H. rewrite <- begins_prefix, H. done. Qed.
Lemma plain_attr w : low w ∉ url_names → has_prefix "on" (low w) = false → low w ≠ "style" → low w ≠ "srcset" → contains_str ":" (low w) = false → has_prefix "data-" (low w) = false →
  contains_str "src" (low w) = false → contains_str "uri" (low w) = false → contains_str "url" (low w) = false → is_attr w ANone.
Proof.
  intros H1 H2 H3 H4 H5 H6 H7 H8 H9. assert (∀ n, local (low w) n → n = low w) as Hl.
  { intros n Hl. destruct Hl as [n|n|ns n Hx Hc Hd|n Hc Hd].
    - done.
    - done.
    - exfalso. rewrite (proj2 (contains_has ":" _)) in H5; [done|]. by exists ns, n.
    - done. }
  constructor.
  - intros (n & Hn & Hu). apply Hl in Hn as ->. destruct Hu as [Hu|(_ & _ & Hu)]; [done|]. rewrite <- !contains_has in Hu. destruct Hu as [Hu|[Hu|Hu]]; congruence.
  - intros (n & Hn & Hu). apply Hl in Hn as ->. destruct Hu as [Hu|[Hu|Hu]]; [done|done|]. rewrite <- begins_prefix in Hu. congruence.
Qed.
Ltac rd :=
  lazymatch goal with
  | |- reads ?c "" _ => apply r_end
  | |- reads InText (String "<" (String "/" ?r)) _ =>
    let x := eval vm_compute in (eat_tag_name r) in
    lazymatch x with (?w, ?s) => refine (r_close w s _ _ _ _); [word|ended|rd] end
  | |- reads InText (String "<" ?r) _ =>
    let x := eval vm_compute in (eat_tag_name r) in
    lazymatch x with (?w, ?s) => let e := eval vm_compute in (TmplEsc.elem_of w) in refine (r_open w e s _ _ _ _ _); [word|element|ended|rd] end
  | |- reads InText (String _ _) _ => apply r_char; [discriminate|rd]
  | |- reads (InTag _) (String " " _) _ => apply r_blank; [decided|rd]
  | |- reads (InTag ?e) (String ">" ?s) _ => refine (r_tag_end e s _ _); cbn [inside]; rd
  | |- reads (InTag ?e) ?s _ =>
    let x := eval vm_compute in (attr_name s) in
    lazymatch x with
    | Some (?w, String "=" ?r) =>
      let a := eval vm_compute in (attr_kind (smap lower w)) in
      refine (r_attr e w a "" r _ _ _ _ _);
        [apply attr_word_all; [discriminate|decided]
        |first [apply plain_attr; first [decided|reflexivity|discriminate]
               |apply ia_url; exists (low w); split; [apply l_plain; [by apply no_has|by apply no_begins]|left; decided]
               |apply ia_code; exists (low w); split; [apply l_plain; [by apply no_has|by apply no_begins]|first [by left|by right; left|right; right; by eexists]]]
        |intros ? ?%elem_of_nil; done|rd]
    end
  | |- reads (InEq _ _) (String ?q _) _ => apply r_quote; [first [by left|by right]|rd]
  | |- reads (InValue ?e ?a ?q ?u) ?s _ =>
    let x := eval vm_compute in (split_char q s) in
    lazymatch x with
    | (?v, Some ?r) => refine (r_value_end e a q u v r _ _ _); [apply no_has; reflexivity|rd]
    | (_, None) => apply r_value; [apply no_has; reflexivity|discriminate|intros _; apply no_has; reflexivity|]
    end
  | |- reads (InPlain _) _ _ => idtac
  end.

Definition field (f : string) : node := NAct XRaw [[OField [f]]].
Definition at_ (x : place) (f : string) : node := NAct x [[OField [f]]].
Definition link_page : list node :=
  [NText "<title>"; field "A"; NText "</title><a class=""x "; field "B"; NText """ href=""/p/"; field "C"; NText "?q="; field "D"; NText """>"; field "E"; NText "</a><img src='"; field "F"; NText "'>"].
Example link_page_placed : placed InText link_page
  [NText "<title>"; at_ XRcdata "A"; NText "</title><a class=""x "; at_ XAttr "B"; NText """ href=""/p/"; at_ XUrlPath "C"; NText "?q="; at_ XUrlQuery "D"; NText """>"; at_ XText "E";
   NText "</a><img src='"; at_ XUrl "F"; NText "'>"] InText.
Proof.
  eapply pl_cons; [apply pl_text; rd|]. eapply pl_cons; [apply pl_act, st_plain|].
  eapply pl_cons; [apply pl_text|].
  { refine (r_plain_end LTitle "" "title" _ _ _ _ _ _ _ _); [apply no_has; reflexivity|element|discriminate|ended|discriminate|]. cbn. rd. by apply mv_other. }
  eapply pl_cons; [apply pl_act, st_attr|]. eapply pl_cons; [apply pl_text; rd|].
  { apply mv_path; [apply no_has; reflexivity|apply no_has; reflexivity|]. rewrite blanks_forall. vm_compute. discriminate. }
  eapply pl_cons; [apply pl_act, st_path|]. eapply pl_cons; [apply pl_text; rd|].
  { apply mv_query. right. by exists "", "q=". }
  eapply pl_cons; [apply pl_act, st_query|]. eapply pl_cons; [apply pl_text; rd|]. eapply pl_cons; [apply pl_act, st_text|].
  eapply pl_cons; [apply pl_text; rd|]. eapply pl_cons; [apply pl_act, st_url|]. eapply pl_cons; [apply pl_text; rd|]. apply pl_nil.
Qed.
(** An event handler, a style, a script; and ways that end in different places. *)
Example handler_refused : esc_tree [NText "<a onclick=""f("; field "A"; NText ")"">x</a>"] = None.
Proof.
  apply misplaced_refused. left. eapply wr_later; [apply pl_text; rd; by apply mv_other|]. apply wr_here, wr_act, cs_attr.
Qed.
Example style_refused : esc_tree [NText "<a style="""; field "A"; NText """>x</a>"] = None.
Proof. apply misplaced_refused. left. eapply wr_later; [apply pl_text; rd|]. apply wr_here, wr_act, cs_attr. Qed.
Example script_refused : esc_tree [NText "<script>"; field "A"; NText "</script>"] = None.
Proof.
  apply misplaced_refused. left. eapply wr_later; [apply pl_text|apply wr_here, wr_act, cs_element].
  refine (r_open "script" LScript ">" _ _ _ _ _); [word|element|ended|]. refine (r_tag_end LScript "" _ _). apply r_end.
Qed.
Example ways_refused : esc_tree [NIf [[OField ["A"]]] [NText "<a"] [NText "<p>"]; NText ">x"] = None.
Proof.
  apply misplaced_refused. left. apply wr_here. eapply wr_if; [eapply pl_cons; [apply pl_text; rd|apply pl_nil]..|]. intros c H. inversion H.
Qed.
Example open_refused : esc_tree [NText "<a"] = None.
Proof. apply misplaced_refused. right. eexists _, (InTag LNone). split; [eapply pl_cons; [apply pl_text; rd|apply pl_nil]|done]. Qed.
(** A heading of a computed level. *)
Example heading_placed : placed InText [NText "<h"; field "Depth"; NText ">"] [NText "<h"; at_ XName "Depth"; NText ">"] InText.
Proof.
  eapply pl_cons; [apply pl_text; rd|]. eapply pl_cons; [apply pl_act, st_tag|]. eapply pl_cons; [apply pl_text; apply r_name; [left; by exists ""|rd]|apply pl_nil].
Qed.
