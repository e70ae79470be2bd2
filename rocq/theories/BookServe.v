(** A server shows the pages of a book as BookChoose.v says. *)
From Coq Require Import Ascii String Lia.
From stdpp Require Import base tactics relations strings list.
From Verif Require Import GoBase Ast Grammar Content ContentSpec ContentProofs Section StrProofs TreeSpec TreeProofs TagProofs QueryProofs
  Render NavProofs RenderSpec WriterProofs Peg Evaluate EvalProofs EvalFrame EvalInv EvalSpec EvalTheory EvalMore BaseSpec BaseRuns Collect Html TextRender Json Command ParseSpec WrittenMore
  Templates Tmpl TmplSrc TmplEsc TmplExec TmplSpec Program Server Serve Props_Tmpl Props_Server Props_Serve
  Book BookLaid BookEval BookStore BookSections BookCollect BookPlaces BookHtml BookBuild BookPlain BookPlainProofs BookChoose BookChooseProofs.
Local Open Scope string_scope. Local Open Scope list_scope.

Section serve.
  Context (E : env) (HE : base_env E) (W : world) (D : disk) (b : sec) (t : BookLaid.tree) (path : string).
  Context (Hf : sec_fine b = true) (HD : on_disk D path t) (HL : laid (on_disk D) path b t).

  Lemma new_serves req name : request_tag "html" req = Some name → ∃ k, ∀ n m, k ≤ n → k ≤ m →
    let reply := (serve_request (reading D E) W path n m None req new_server).2 in
    match tagged b name with
    | [] => reply = Ok RStatic
    | (pl, c) :: _ =>
      match bad (site b) (e_broken E) (page_refs c) with
      | [] => reply = Ok (RPage (page_of (site b) pl c))
      | tag :: _ => ∃ e, reply = Ok (RPageFailed (RTag e)) ∧ refused (site b) tag e
      end
    end.
  Proof.
    intros Hr. destruct (book_loads E HE W D b t path Hf HD HL) as (k & s & Hl & Hs & Hw & Hto).
    destruct (book_find (st_heap s) Hw b Hf Hs name) as (ts & Hts & F).
    assert (∀ n m, k ≤ n → (serve_request (reading D E) W path n m None req new_server).2 =
      match ts with [] => Ok RStatic | t :: _ => match t_section t with
        | Some i => (render_requested (reading D E) W m None (st_heap s) i (new_engine bundled_html)).2
        | None => Panic end end) as Hreq.
    { intros n m Hn. unfold serve_request, load_requested. rewrite Hr. change (sv_cache new_server) with (@nil (string * (Ast.node * nat))). rewrite (Hl n Hn), Hts.
      destruct ts as [|tg ts]; [done|]. destruct (t_section tg) as [i|]; [|done]. change (sv_engine new_server) with (new_engine bundled_html).
      by destruct (render_requested (reading D E) W m None (st_heap s) i (new_engine bundled_html)). }
    destruct F as [|[pl c] tg qs ts (i & Hi & Hq & _) F].
    { exists k. intros n m Hn Hm. cbv zeta. by rewrite (Hreq n m Hn). }
    pose proof (sits_page (e_similar E) (e_broken E) (st_heap s) Hw Hto (w_force W) (cstring (e_similar E) (e_broken E) (st_heap s) (e_jumps E)) b Hf Hs
      (says_text E s) (S (size b)) ltac:(lia) i (pl, c) Hq) as Hg. cbn [fst snd] in Hg.
    destruct (bundled_html_pages (e_similar E) (e_broken E) (st_heap s) (w_force W) (cstring (e_similar E) (e_broken E) (st_heap s) (e_jumps E)) i
      (cstring_ok _ _ _ _)) as [Hsame _]. specialize (Hsame (S (size b))).
    unfold gives in Hg. destruct (bad (site b) (e_broken E) (page_refs c)) as [|tag bads].
    - rewrite Hg in Hsame. destruct (Hsame ltac:(done)) as (k2 & Hk2). exists (Nat.max k k2). intros n m Hn Hm. cbv zeta. rewrite (Hreq n m) by lia. rewrite Hi.
      specialize (Hk2 m ltac:(lia)). unfold render_requested. cbn [new_engine e_tmpl snd]. simpl e_similar. simpl e_broken. simpl e_jumps.
      destruct (run_page _ _ _ _ _ _ _ _ _ _); simpl in Hk2; try done. by rewrite Hk2.
    - destruct Hg as (e & Hg & Hrf). rewrite Hg in Hsame. destruct (Hsame ltac:(done)) as (k2 & Hk2). exists (Nat.max k k2). intros n m Hn Hm. cbv zeta. exists e. split; [|done]. rewrite (Hreq n m) by lia. rewrite Hi.
      specialize (Hk2 m ltac:(lia)). unfold render_requested. cbn [new_engine e_tmpl snd]. simpl e_similar. simpl e_broken. simpl e_jumps.
      destruct (run_page _ _ _ _ _ _ _ _ _ _) as [|e2| |]; simpl in Hk2; try done. destruct e2; try done. by rewrite Hk2.
  Qed.
End serve.

(** ** Pages and their tags *)

Lemma main_marked pl b : (main_tag b, (pl, b)) ∈ marks pl b.
Proof.
  rewrite marks_eq. apply elem_of_app. left. rewrite map_app. apply elem_of_app. left. unfold main_tag.
  destruct (tag_names b) as [|n l] eqn:En; [destruct b as [? [|? ?]]; done|]. simpl. left.
Qed.
Lemma below_marked S b : ∀ pl f page, (f, page) ∈ pages_below S pl b →
  ∃ pc c, f = file_name c ∧ page = page_of S pc c ∧ (main_tag c, (pc, c)) ∈ marks pl b.
Proof.
  induction b as [title tags split omit body subs IH] using sec_ind'. intros pl f page. set (b := Sec title tags split omit body subs) in *.
  assert (pages_below S pl b = concat (mapi (λ k c, (if is_split b then [(file_name c, page_of S (sub_place pl b k c) c)] else []) ++ pages_below S (sub_place pl b k c) c) 1 (subs_of b))) as -> by done.
  rewrite marks_eq. change (subs_of b) with subs. clearbody b. generalize 1.
  assert (∀ k, (f, page) ∈ concat (mapi (λ k c, (if is_split b then [(file_name c, page_of S (sub_place pl b k c) c)] else []) ++ pages_below S (sub_place pl b k c) c) k subs) →
    ∃ pc c, f = file_name c ∧ page = page_of S pc c ∧ (main_tag c, (pc, c)) ∈ concat (mapi (λ k c, marks (sub_place pl b k c) c) k subs)) as Hgo.
  { induction IH as [|c l Hc _ IHl]; intros k; [by intros ?%elem_of_nil|]. cbn [mapi concat]. intros [[Hin|Hin]%elem_of_app|Hin]%elem_of_app.
    - destruct (is_split b); [|by apply elem_of_nil in Hin]. apply elem_of_list_singleton in Hin as [= -> ->]. exists (sub_place pl b k c), c. split; [done|]. split; [done|].
      apply elem_of_app. left. apply main_marked.
    - destruct (Hc _ _ _ Hin) as (pc & d & ? & ? & ?). exists pc, d. split; [done|]. split; [done|]. apply elem_of_app. by left.
    - destruct (IHl _ Hin) as (pc & d & ? & ? & ?). exists pc, d. split; [done|]. split; [done|]. apply elem_of_app. by right. }
  intros k Hin. destruct (Hgo k Hin) as (pc & c & ? & ? & ?). exists pc, c. split; [done|]. split; [done|]. apply elem_of_app. by right.
Qed.
Lemma page_marked b f page : (f, page) ∈ pages b → ∃ pc c, f = file_name c ∧ page = page_of (site b) pc c ∧ (main_tag c, (pc, c)) ∈ marks (top_place b) b.
Proof.
  unfold pages. intros [[= -> ->]|Hin]%elem_of_cons; [|by apply below_marked]. exists (top_place b), b. split; [done|]. split; [done|]. apply main_marked.
Qed.
Lemma filter_one (l : list (string * (place * sec))) tag q : NoDup (map fst l) → (tag, q) ∈ l → map snd (List.filter (λ m, String.eqb (fst m) tag) l) = [q].
Proof.
  induction l as [|[n q'] l IH]; [by intros _ ?%elem_of_nil|]. cbn [map fst]. intros [Hn Hd]%stdpp.list.NoDup_cons [[= -> ->]|Hin]%elem_of_cons; cbn [List.filter fst].
  - rewrite String.eqb_refl. simpl. f_equal. clear - Hn. induction l as [|[m p] l IH]; [done|]. cbn [map fst] in Hn. apply not_elem_of_cons in Hn as [H1 H2]. cbn [List.filter fst].
    destruct (String.eqb_spec m n); [congruence|]. by apply IH.
  - destruct (String.eqb_spec n tag) as [->|]; [|by apply IH]. destruct Hn. apply elem_of_list_fmap. by exists (tag, q).
Qed.

(** ** The pages of a section are pages of the book *)

Lemma from_eq b q : pages_from b q = (if pl_own (fst q) then [(file_name (snd q), page_of (site b) (fst q) (snd q))] else []) ++ pages_below (site b) (fst q) (snd q).
Proof. done. Qed.
Lemma from_below top b : ∀ pl n q, (n, q) ∈ marks pl b → pages_from top q ⊆ pages_from top (pl, b).
Proof.
  induction b as [title tags split omit body subs IH] using sec_ind'. intros pl n q. rewrite marks_eq. set (b := Sec title tags split omit body subs) in *.
  change (subs_of b) with subs. intros [Hin|Hin]%elem_of_app.
  { apply elem_of_list_fmap in Hin as (? & [= _ ->] & _). done. }
  assert (pages_below (site top) pl b = concat (mapi (λ k c, (if is_split b then [(file_name c, page_of (site top) (sub_place pl b k c) c)] else []) ++ pages_below (site top) (sub_place pl b k c) c) 1 subs)) as Hb by done.
  rewrite (from_eq top (pl, b)). cbn [fst snd]. rewrite Hb. intros p Hp. apply elem_of_app. right. clear Hb. clearbody b. revert Hin. generalize 1.
  induction IH as [|c l Hc _ IHl]; intros k; [by intros ?%elem_of_nil|]. cbn [mapi concat]. intros [Hin|Hin]%elem_of_app; apply elem_of_app; [left|right; by apply IHl].
  specialize (Hc _ _ _ Hin p Hp). rewrite from_eq in Hc. cbn [fst snd] in Hc. unfold sub_place in Hc at 1. by destruct (is_split b).
Qed.
