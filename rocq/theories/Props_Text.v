(** C43: the bundled text templates; and the sections on a page, in text and HTML. *)
From Coq Require Import Ascii String Lia.
From stdpp Require Import base tactics relations strings list.
From Verif Require Import GoBase StrProofs Ast Content Section TreeSpec TreeProofs QueryProofs NavProofs RenderSpec WriterProofs Render Demo
  Evaluate Collect BaseInv DemoDoc Html HtmlSpec HtmlProofs HtmlRender HtmlText Woven HtmlToc TextRender TextProofs HtmlPages RenderFuel
  HtmlLoad Props_Html Props_Toc.
Local Open Scope string_scope.
Local Open Scope list_scope.

(** ** C43 *)

(** Strings, sequences, paragraphs, preformatted and inset content: exactly their
    text. *)
Theorem text_exact : ∀ h force str n c s, plain c → text h force str n c = Ok s ↔ prints c s.
Proof. intros h force str n c s Hp. destruct (text_unfold h force str n) as (jump & -> & _). by apply text_F_plain. Qed.
Print Assumptions text_exact.

Lemma plain_prints : ∀ c, plain c → ∃ s, prints c s.
Proof.
  assert (∀ l, Forall (λ c, plain c → ∃ s, prints c s) l → Forall plain l → ∃ ss, Forall2 prints l ss) as L.
  { intros l IH F. induction F as [|c l Hc F IHF]; [exists []; constructor|]. inversion IH as [|? ? Hx Hl]; subst.
    destruct (Hx Hc) as [s ?]. destruct (IHF Hl) as [ss ?]. exists (s :: ss). by constructor. }
  intros c.   induction c as [s|l IH|l IH|l IH|sec t rc o l IH|c t IH|s|s|st b c ps IH IHps|t l ti x IHt IHx|p d|l o IH|rows IH|defs IH|b t|c IH]
    using ContentProofs.content_ind'; intros Hp; inversion Hp; subst.
  - eexists. constructor.
  - destruct (L l) as [ss ?]; [done..|]. eexists. by constructor.
  - destruct (L l) as [ss ?]; [done..|]. eexists. by constructor.
  - destruct (L l) as [ss ?]; [done..|]. eexists. by constructor.
  - destruct IH as [s ?]; [done|]. eexists. by constructor.
  - destruct IH as [s ?]; [done|]. eexists. by constructor.
Qed.
(** Rendering these never fails. *)
Theorem text_plain_ok : ∀ h force str c, plain c → ∃ s, ∀ n, text h force str n c = Ok s.
Proof. intros h force str c Hp. destruct (plain_prints c Hp) as [s Hs]. exists s. intros n. by apply text_exact. Qed.
Print Assumptions text_plain_ok.

(** Content that shows something without a template, however deep, is not rendered. *)
Theorem text_never_drops : ∀ h force str n c s, unsupported c → text h force str n c ≠ Ok s.
Proof. intros. by apply text_unsupported. Qed.
Print Assumptions text_never_drops.

Definition letter : content := CSeq
  [CPara [CSeq [CString "Dear"; CString " you,"]; CString "second line"];
   CStyled "inset" true (CPre [CString "a"; CSeq [CString "b"; CAux (CString "!")]]) []].
Example letter_text : plain letter ∧ text [] (λ _, None) (λ _, Panic) 0 letter = Ok "Dear you, second line

    a
    b!".
Proof. split; [repeat constructor|reflexivity]. Qed.
Example deep_link : unsupported (CSeq [CString "a"; CStyled "inset" false (CPara [CString "b"; CLink (CString "c") "d"]) []]).
Proof. eapply un_seq; [right; left|]. apply un_inset. eapply un_para; [right; left|]. constructor. Qed.

(** *** Pages *)

(** The page of a section: its title, and then each section that is not on a page of
    its own, in depth-first order; between them only white space. *)
Theorem text_page_sections : ∀ h force str o s n out l, h !! o = Some s → listing h (λ s, negb (s_split s)) o l →
  (∀ j x, j ∈ l → h !! j = Some x → plain_style x) →
  text_page h force str n o = Ok out →
  ∃ title es body, str (s_title s) = Ok title ∧ out = title +:+ String newline (String newline "") +:+ body ∧
    Forall2 (text_section h force str) l es ∧ woven blank es body.
Proof.
  intros h force str o s n out l Ho Hl Hst E. unfold text_page, need in E. rewrite Ho in E.
  destruct (String.eqb_spec (s_style s) ""); [|done]. unfold page_text_tmpl, need in E. rewrite Ho in E. unfold text_of in E.
  destruct (str (s_title s)) as [t| | |]; try done. destruct (text h force str n (CSection o)) as [b| | |] eqn:Eb; try done.
  injection E as <-. destruct (section_woven h force str o l n b Hl Hst Eb) as (es & F & W). eauto 10.
Qed.
Print Assumptions text_page_sections.

(** Nothing on it is dropped. *)
Theorem text_page_never_drops : ∀ h force str o n l out j x, listing h (λ s, negb (s_split s)) o l →
  (∀ j x, j ∈ l → h !! j = Some x → plain_style x) → j ∈ l → h !! j = Some x →
  unsupported (s_title x) ∨ unsupported (s_body x) → text_page h force str n o ≠ Ok out.
Proof.
  intros h force str o n l out j x Hl Hst Hj Hx Hu E. inversion Hl as [? s l' Ho _]; subst.
  unfold text_page, need in E. rewrite Ho in E.
  destruct (String.eqb_spec (s_style s) ""); [|done]. unfold page_text_tmpl, need in E. rewrite Ho in E. unfold text_of in E.
  destruct (str (s_title s)) as [t| | |]; try done. destruct (text h force str n (CSection o)) as [b| | |] eqn:Eb; try done.
  by eapply section_unsupported in Eb.
Qed.
Print Assumptions text_page_never_drops.

(** Likewise in HTML. *)
Theorem html_page_sections : ∀ similar broken h force str o s n out l, h !! o = Some s → listing h (λ s, negb (s_split s)) o l →
  (∀ j x, j ∈ l → h !! j = Some x → plain_style x) →
  html_page similar broken h force str n o = Ok out →
  ∃ title es body before after, str (s_title s) = Ok title ∧
    out = before +:+ "<title>" +:+ escape title +:+ "</title>" +:+ after +:+ body +:+
          (String newline "" +:+ "  </body>" +:+ String newline "" +:+ "</html>") ∧
    Forall2 (html_section similar broken h force str) l es ∧ woven blank es body.
Proof.
  intros similar broken h force str o s n out l Ho Hl Hst E. unfold html_page, page_tmpl, need in E. rewrite Ho in E. unfold text_of in E.
  destruct (str (s_title s)) as [t| | |]; try done. destruct (html similar broken h force str n (CSection o)) as [b| | |] eqn:Eb; try done.
  cbn [obind] in E. assert (out = page_html t b) as -> by congruence. clear E.
  destruct (html_section_woven similar broken h force str o l n b Hl Hst Eb) as (es & F & W).
  exists t, es, b, ("<!DOCTYPE html>" +:+ nls +:+ "<html>" +:+ nls +:+ "  <head>" +:+ nls +:+
  "    <meta http-equiv=""content-type"" content=""text/html; charset=utf-8"" />" +:+ nls +:+ "    "),
   (nls +:+ "  </head>" +:+ nls +:+ "  <body>" +:+ nls +:+ "    ").
  split; [done|]. split; [|done]. unfold page_html. change (String newline "") with nls. rewrite !sapp_assoc. reflexivity.
Qed.
Print Assumptions html_page_sections.

(** A page of Demo with several sections. *)
Definition intros_page : rendered := text_page demo (λ _, None) (λ c, match c with CString s => Ok s | _ => Panic end) 5 1.
Example intros_page_text : listing demo (λ s, negb (s_split s)) 1 [1; 2; 3] ∧
  ∃ out, intros_page = Ok out ∧ ink out = ink "intro 1 intro body of intro 1.1 why body of why 1.2 how body of how".
Proof. split; [list_section; list_sections|]. eexists. split; vm_compute; reflexivity. Qed.

(** *** Refutations *)

(** The title of a section runs into its body: section.tmpl trims the empty line
    between them. *)
Theorem text_title_separated_refuted : ∃ nd out, snd (loaded_file nd) = Ok 0 ∧ text_page (st_heap (fst (loaded_file nd))) (λ _, None)
    (cstring (λ _ _, false) false (st_heap (fst (loaded_file nd))) 5) 10 0 = Ok out ∧
  ∃ rest, out = "Title" +:+ nls +:+ nls +:+ "TitleBody" +:+ rest.
Proof.
  exists (NSeq [para [call 1 "title" [txt "Title"]]; para [txt "Body"]]).
  eexists. split; [vm_compute; reflexivity|]. split; [vm_compute; reflexivity|]. eexists. reflexivity.
Qed.
Print Assumptions text_title_separated_refuted.

(** There is no fallback for the page of a styled section, as there is for HTML
    (render/html.go:172-188), though the comment of text.go:160-161 says that one is
    used instead only if it exists. *)
Theorem text_styled_page_refuted : ∃ nd, snd (loaded_file nd) = Ok 0 ∧ (∃ out, page_of nd = Ok out) ∧
  ∀ n, text_page (st_heap (fst (loaded_file nd))) (λ _, None)
    (cstring (λ _ _, false) false (st_heap (fst (loaded_file nd))) 5) n 0 = Err (RTemplate "section-page").
Proof.
  exists (NSeq [para [call 1 "title" [txt "Title"]]; para [call 2 "styled" [txt "section"]]; para [txt "Body"]]).
  split; [vm_compute; reflexivity|]. split; [eexists; vm_compute; reflexivity|]. intros n. reflexivity.
Qed.
Print Assumptions text_styled_page_refuted.
