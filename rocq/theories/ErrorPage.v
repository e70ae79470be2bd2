(** The HTML of error pages: what it says and how it is built. *)
From Coq Require Import Ascii String Lia.
From stdpp Require Import base tactics strings list.
From Verif Require Import GoBase StrProofs Ast Content Section Html HtmlSpec HtmlProofs HtmlText Annotate Report.
Local Open Scope string_scope. Local Open Scope list_scope.

(** ** Specification *)

(** [read] of HtmlSpec.v, but for one thing: text may have apostrophes, as the
    templates of the error pages do. *)
Definition lstep (s : tstate) (c : ascii) : option (tstate * list token) :=
  match s with SText => if Ascii.eqb c "'" then Some (SText, [TChar c]) else tstep s c | _ => tstep s c end.
Fixpoint lread (st : tstate) (s : string) : option (tstate * list token) :=
  match s with
  | "" => Some (st, [])
  | String c s =>
    match lstep st c with
    | None => None
    | Some (st', ts) => match lread st' s with None => None | Some (st'', ts') => Some (st'', ts ++ ts') end
    end
  end.

(** The elements of the templates. *)
Definition error_elements : list (string * list (string * string)) :=
  [("p", []); ("code", []); ("ul", []); ("li", []); ("span", [("class", "eof")]); ("span", [("class", "annotated")])] ++
  map (λ c, ("div", [("class", c)])) ["error"; "error-message"; "code-location"; "file-snippet"; "annotated-line"] ++
  map (λ c, ("pre", [("class", c)])) ["file-path"; "lineno"; "line"; "raw-error"].
Definition error_token (t : token) : Prop :=
  match t with
  | TChar _ => True
  | TOpen n l => (n, l) ∈ error_elements
  | TClose _ => True
  | TVoid _ _ | TDoctype _ => False
  end.

(** Well-formed HTML of these elements whose text, white space aside, is [t]. *)
Definition page_says (html t : string) : Prop :=
  ∃ ts, lread SText html = Some (SText, ts) ∧ balanced ts ∧ Forall error_token ts ∧ ink (chars ts) = ink (unnul t).

(** What there is to say, in plain text. None: the source cannot be shown. *)
Definition source_of (T : telling) (l : errloc) : annotation :=
  annotated (t_size T) (match t_open T (el_file l) with inl _ => None | inr f => Some f end) l.
Definition source_text (T : telling) (l : errloc) : option string :=
  match source_of T l with
  | ANone => Some ""
  | AFail | APanic => None
  | AShow s =>
    Some (el_file l +:+ ":" +:+ dec (sn_line s) +:+
          (if sn_eof s then "(end of file)" else sn_prefix s +:+ sn_annotated s +:+ sn_suffix s))
  end.

Fixpoint explanation (T : telling) (e : error) : option string :=
  match e with
  | EParse l => s ← source_text T l; Some ("parse error" +:+ t_inner T l +:+ s)
  | EUnknownTag name similar l =>
    s ← source_text T l;
    Some ("reference to unknown tag:" +:+ name +:+ s +:+
          match similar with
          | [] => "I couldn't find any similar tags. :("
          | _ => "These tags seem similar:" +:+ sconcat (map t_name similar) +:+ "Did you mean one of these?"
          end)
  | EAmbiguous name defs l =>
    s ← source_text T l; ss ← omap_all (source_text T) defs;
    Some ("ambiguous reference tag:" +:+ name +:+ s +:+ "The same tag was defined in the following locations:" +:+
          sconcat ss +:+ "One of these tags must be changed.")
  | EUndefined fn l => s ← source_text T l; Some ("undefined function: \" +:+ fn +:+ s)
  | EFailed fn e l =>
    s ← source_text T l; t ← explanation T e; Some ("function \" +:+ fn +:+ " returned an error" +:+ s +:+ t)
  | ETitleTwice first l =>
    s ← source_text T l; s1 ← source_text T first;
    Some ("cannot set title twice" +:+ s +:+ "The section's title was first set here:" +:+ s1 +:+
          "Maybe the second \title should be in a \section{...}?")
  | _ => Some (error_text T e)
  end.

(** ** Lemmas *)

Lemma lread_read s : ∀ st r, read st s = Some r → lread st s = Some r.
Proof.
  induction s as [|c s IH]; intros st r H; [done|]. cbn [read lread] in *.
  assert (tstep st c = None ∨ lstep st c = tstep st c) as [E|E].
  { unfold lstep. destruct st; try by right. destruct (Ascii.eqb_spec c "'") as [->|]; [by left|by right]. }
  - by rewrite E in H.
  - rewrite E. destruct (tstep st c) as [[st' ts]|]; [|done].
    destruct (read st' s) as [[st'' ts']|] eqn:R; [|done]. by rewrite (IH _ _ R).
Qed.
Lemma lread_app s t : ∀ st st' st'' ts ts', lread st s = Some (st', ts) → lread st' t = Some (st'', ts') →
  lread st (s +:+ t) = Some (st'', ts ++ ts').
Proof.
  induction s as [|c s IH]; intros st st' st'' ts ts' H1 H2.
  - injection H1 as -> <-. done.
  - cbn [append lread] in *. destruct (lstep st c) as [[st1 ts1]|]; [|done].
    destruct (lread st1 s) as [[st2 ts2]|] eqn:E; [|done]. injection H1 as -> <-.
    rewrite (IH _ _ _ _ _ E H2). by rewrite (assoc_L (++)).
Qed.

(** From the open elements [a] to [b], saying [t]. *)
Definition lgoes (a b : list string) (s t : string) : Prop :=
  ∃ ts, lread SText s = Some (SText, ts) ∧ (∀ st, balance (a ++ st) ts = Some (b ++ st)) ∧
    Forall error_token ts ∧ ink (chars ts) = ink (unnul t).

Lemma lgoes_app a b c s t s' t' : lgoes a b s t → lgoes b c s' t' → lgoes a c (s +:+ s') (t +:+ t').
Proof.
  intros (ts & H1 & H2 & H3 & H4) (ts' & H1' & H2' & H3' & H4'). exists (ts ++ ts').
  split_and!; [by eapply lread_app| |by apply Forall_app|].
  - intros st. rewrite (balance_app _ _ _ _ (H2 st)). apply H2'.
  - by rewrite chars_app, unnul_app, !ink_app, H4, H4'.
Qed.
Lemma lgoes_under k s t : lgoes [] [] s t → lgoes k k s t.
Proof. intros (ts & H1 & H2 & H3 & H4). exists ts. split_and!; [done| |done|done]. intros st. apply (H2 (k ++ st)). Qed.
Lemma lgoes_ink a b s t t' : ink (unnul t) = ink (unnul t') → lgoes a b s t → lgoes a b s t'.
Proof. intros E (ts & H1 & H2 & H3 & H4). exists ts. split_and!; try done. congruence. Qed.
Lemma lgoes_nil k : lgoes k k "" "".
Proof. exists []. by split_and!. Qed.
Lemma lgoes_escape k s : lgoes k k (escape s) s.
Proof.
  eexists. split_and!; [apply lread_read, read_escape|intros st; apply balance_chars|..].
  - apply Forall_forall. intros t (c & -> & _)%elem_of_list_fmap. done.
  - f_equal. induction (unnul s) as [|c u IH]; [done|]. cbn. by rewrite IH.
Qed.
Lemma lgoes_escape_string k s : lgoes k k (escape_string s) s.
Proof.
  induction s as [|c s IH]; [apply lgoes_nil|]. cbn [escape_string]. apply (lgoes_app k k k _ (String c "") _ s); [|done].
  destruct (Ascii.eqb_spec c "+") as [->|].
  - exists [TChar "+"]. split_and!; try done. by repeat constructor.
  - pose proof (lgoes_escape k (String c "")) as H. cbn [escape] in H. by rewrite sapp_nil_r in H.
Qed.
Lemma lgoes_concat k (l : list (string * string)) : Forall (λ p, lgoes [] [] (fst p) (snd p)) l →
  lgoes k k (sconcat (map fst l)) (sconcat (map snd l)).
Proof.
  induction 1 as [|[s t] l H _ IH]; [apply lgoes_nil|]. cbn [map sconcat fst snd].
  eapply lgoes_app; [|exact IH]. by apply lgoes_under.
Qed.

Definition error_tokenb (t : token) : bool :=
  match t with
  | TChar _ | TClose _ => true
  | TOpen n l => bool_decide ((n, l) ∈ error_elements)
  | _ => false
  end.
Lemma error_tokenb_spec t : error_tokenb t = true → error_token t.
Proof. by destruct t; simpl; try done; intros H%bool_decide_eq_true. Qed.

Definition piece (a : list string) (s : string) : option (list string * string) :=
  match lread SText s with
  | Some (SText, ts) => if forallb error_tokenb ts then b ← balance_lit a ts; Some (b, ink (chars ts)) else None
  | _ => None
  end.
Lemma piece_goes a s b t t' : piece a s = Some (b, t) → ink (unnul t') = t → lgoes a b s t'.
Proof.
  unfold piece. destruct (lread SText s) as [[[] ts]|] eqn:E; try done.
  destruct (forallb error_tokenb ts) eqn:F; [|done]. destruct (balance_lit a ts) as [b'|] eqn:B; [|done].
  intros [= -> <-] Ht. exists ts. split_and!; [done|intros st; by apply balance_lit_spec|..|done].
  apply Forall_forall. intros x Hx. apply error_tokenb_spec. rewrite forallb_forall in F. apply F. by apply elem_of_list_In.
Qed.

(** A constant that says nothing, or that says [t]. *)
Lemma piece_quiet a m b s r t : piece a s = Some (m, "") → lgoes m b r t → lgoes a b (s +:+ r) t.
Proof. intros H G. apply (lgoes_app a m b s "" r t); [by eapply piece_goes|done]. Qed.
Lemma piece_loud a m b s r u t : piece a s = Some (m, ink (unnul u)) → lgoes m b r t → lgoes a b (s +:+ r) (u +:+ t).
Proof. intros H G. apply (lgoes_app a m b s u r t); [by eapply piece_goes|done]. Qed.
Lemma piece_end a b c s r t : piece b r = Some (c, "") → lgoes a b s t → lgoes a c (s +:+ r) t.
Proof. intros H G. rewrite <- (sapp_nil_r t). apply (lgoes_app a b c s t r ""); [done|by eapply piece_goes]. Qed.
Ltac quiet :=
  match goal with
  | |- lgoes ?a ?b (?s +:+ ?r) ?t =>
    let p := eval vm_compute in (piece a s) in
    match p with Some (?m, "") => apply (piece_quiet a m b s r t); [vm_compute; reflexivity|] end
  end.
Ltac loud u :=
  match goal with
  | |- lgoes ?a ?b (?s +:+ ?r) (u +:+ ?t) =>
    let p := eval vm_compute in (piece a s) in
    match p with Some (?m, _) => apply (piece_loud a m b s r u t); [vm_compute; reflexivity|] end
  end.
Ltac last_quiet := match goal with |- lgoes ?a ?b ?s "" => apply (piece_goes a s b "" ""); vm_compute; reflexivity end.
Ltac text := match goal with |- lgoes ?a ?b (?s +:+ ?r) (?t +:+ ?u) => apply (lgoes_app a a b s t r u) end.

Lemma ink_srepeat n : ink (unnul (srepeat " " n)) = "".
Proof. induction n; [done|]. cbn. done. Qed.
Lemma ink_four n : ink (unnul (four n)) = ink (unnul (dec n)).
Proof. unfold four. rewrite !unnul_app, !ink_app, ink_srepeat. done. Qed.

Lemma annotated_html_says T l : match annotated_html T l, source_text T l with
  | Some h, Some t => lgoes [] [] h t
  | None, None => True
  | _, _ => False
  end.
Proof.
  unfold annotated_html, source_text, source_of. destruct (annotated _ _ l) as [| | |s]; try done; [apply lgoes_nil|].
  rewrite <- (sapp_nil_r (el_file l +:+ _)). rewrite !sapp_assoc.
  repeat quiet. text; [apply lgoes_escape|]. loud ":". repeat quiet.
  text; [eapply lgoes_ink; [apply ink_four|apply lgoes_escape]|]. repeat quiet.
  apply (lgoes_app _ ["div"; "div"] _); [|repeat quiet; last_quiet].
  destruct (sn_eof s).
  - rewrite <- (sapp_nil_r "(end of file)"). quiet. loud "(end of file)". repeat quiet. last_quiet.
  - rewrite <- (sapp_nil_r (sn_prefix s +:+ _)), !sapp_assoc. repeat quiet. text; [apply lgoes_escape|]. quiet.
    text; [apply lgoes_escape|]. quiet. text; [apply lgoes_escape|]. repeat quiet. last_quiet.
Qed.

Lemma code_location_goes k h t : lgoes [] [] h t → lgoes k k (code_location h) t.
Proof.
  intros H. unfold code_location. apply lgoes_under. rewrite <- (sapp_nil_r t). repeat quiet. text; [by apply lgoes_under|].
  repeat quiet. last_quiet.
Qed.
Lemma error_div_goes m r t u : lgoes ["div"; "div"] ["div"; "div"] m t → lgoes ["div"] ["div"] r u →
  lgoes [] [] (error_div m r) (t +:+ u).
Proof.
  intros Hm Hr. unfold error_div. rewrite <- (sapp_nil_r u). repeat quiet. text; [done|]. repeat quiet. text; [done|]. last_quiet.
Qed.

Lemma error_html_says T e : match error_html T e, explanation T e with
  | Some h, Some t => lgoes [] [] h t
  | None, None => True
  | _, _ => False
  end.
Proof.
  assert (∀ s, lgoes [] [] ("<pre class=""raw-error"">" +:+ escape_string s +:+ "</pre>") s) as Plain.
  { intros s. rewrite <- (sapp_nil_r s) at 2. quiet. text; [apply lgoes_escape_string|]. last_quiet. }
  induction e; try apply Plain; cbn [error_html explanation].
  - pose proof (annotated_html_says T l) as H.
    destruct (annotated_html T l), (source_text T l); try done. cbn [mbind option_bind].
    apply error_div_goes; [eapply piece_goes; [vm_compute; reflexivity|done]|].
    quiet. text; [apply lgoes_escape|]. repeat quiet. by apply code_location_goes.
  - pose proof (annotated_html_says T l) as H.
    destruct (annotated_html T l), (source_text T l); try done. cbn [mbind option_bind].
    rewrite <- (sapp_assoc _ name). apply error_div_goes.
    + rewrite <- (sapp_nil_r name) at 2. loud "reference to unknown tag:". text; [apply lgoes_escape|]. last_quiet.
    + text; [by apply code_location_goes|]. repeat quiet. apply (piece_end _ ["div"]); [vm_compute; reflexivity|].
      destruct similar as [|t0 similar].
      * rewrite <- (sapp_nil_r "I couldn't find any similar tags. :("). quiet. loud "I couldn't find any similar tags. :(". last_quiet.
      * rewrite <- (sapp_nil_r "Did you mean one of these?"). quiet. loud "These tags seem similar:". repeat quiet.
        text.
        { generalize (t0 :: similar). intros ts. induction ts as [|x ts IH]; [apply lgoes_nil|]. cbn [map sconcat].
          text; [|exact IH]. rewrite <- (sapp_nil_r (t_name x)) at 2. repeat quiet. text; [apply lgoes_escape|]. last_quiet. }
        repeat quiet. loud "Did you mean one of these?". last_quiet.
  - pose proof (annotated_html_says T l) as H.
    destruct (annotated_html T l), (source_text T l); try done. cbn [mbind option_bind].
    assert (match omap_all (annotated_html T) defs, omap_all (source_text T) defs with
      | Some hs, Some ss => ∀ k, lgoes k k (sconcat (map (λ h, lf +:+ code_location h +:+ "  ") hs)) (sconcat ss)
      | None, None => True | _, _ => False end) as D.
    { induction defs as [|d defs IH]; [intros k; apply lgoes_nil|]. cbn [omap_all].
      pose proof (annotated_html_says T d) as Hd. destruct (annotated_html T d), (source_text T d); try done. cbn [mbind option_bind].
      destruct (omap_all (annotated_html T) defs), (omap_all (source_text T) defs); try done. cbn [mbind option_bind].
      intros k. cbn [map sconcat]. text; [|apply IH]. apply lgoes_under.
      quiet. apply (piece_end _ []); [vm_compute; reflexivity|]. by apply code_location_goes. }
    destruct (omap_all (annotated_html T) defs), (omap_all (source_text T) defs); try done. cbn [mbind option_bind].
    rewrite <- (sapp_assoc _ name). apply error_div_goes.
    + rewrite <- (sapp_nil_r name) at 2. loud "ambiguous reference tag:". text; [apply lgoes_escape|]. last_quiet.
    + text; [by apply code_location_goes|]. quiet. loud "The same tag was defined in the following locations:". repeat quiet.
      text; [apply D|]. rewrite <- (sapp_nil_r "One of these tags must be changed."). repeat quiet.
      loud "One of these tags must be changed.". last_quiet.
  - pose proof (annotated_html_says T l) as H.
    destruct (annotated_html T l), (source_text T l); try done. cbn [mbind option_bind].
    rewrite <- (sapp_assoc _ fn). apply error_div_goes; [|by apply code_location_goes].
    rewrite <- (sapp_nil_r fn) at 2. loud "undefined function: \". text; [apply lgoes_escape|]. last_quiet.
  - pose proof (annotated_html_says T l) as H.
    destruct (annotated_html T l), (source_text T l); try done. cbn [mbind option_bind].
    destruct (error_html T e), (explanation T e); try done. cbn [mbind option_bind].
    rewrite <- (sapp_assoc fn), <- (sapp_assoc _ (fn +:+ _)). apply error_div_goes.
    + rewrite <- (sapp_nil_r " returned an error"). loud "function \". text; [apply lgoes_escape|]. 
      eapply piece_goes; [vm_compute; reflexivity|done].
    + text; [by apply code_location_goes|]. repeat quiet. apply (piece_end _ ["div"]); [vm_compute; reflexivity|]. by apply lgoes_under.
  - pose proof (annotated_html_says T second) as H.
    destruct (annotated_html T second), (source_text T second); try done. cbn [mbind option_bind].
    pose proof (annotated_html_says T first) as H1.
    destruct (annotated_html T first), (source_text T first); try done. cbn [mbind option_bind].
    apply error_div_goes; [eapply piece_goes; [vm_compute; reflexivity|done]|].
    text; [by apply code_location_goes|]. quiet. loud "The section's title was first set here:". repeat quiet.
    text; [by apply code_location_goes|]. quiet. eapply piece_goes; [vm_compute; reflexivity|done].
Qed.
