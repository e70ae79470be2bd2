(** Escaped lines, comments in lines, and verbatim arguments. *)
From Coq Require Import Ascii String NArith Lia.
From stdpp Require Import base tactics relations strings numbers list.
From Verif Require Import GoBase Ast Utf8 Peg StrProofs PegBase Descent DescentProofs ParseSpec ParserMain
  Encoding Positions Runs Shape Grammar GrammarProofs GrammarParse Written WrittenProofs WrittenMore.
Local Open Scope string_scope.
Local Open Scope list_scope.

Lemma text_pieces b t : valid_utf8 t → line_free t = true →
  ∃ l, texts l = Some t ∧ nwords b l ∧ sconcat (map show l) = escape t ∧ starts_blank l = sblank t ∧
    (t ≠ "" → l ≠ []) ∧ (solid t → ∃ l' nd, l = l' ++ [nd] ∧ is_run nd = true ∧ all_blank nd = false).
Proof.
  intros (xs & Hx & ->) Hl. destruct (pieces b xs Hx Hl) as (l & H1 & H2 & H3 & H4 & H5 & _ & H6). eauto 10.
Qed.

Lemma texts_erase l l' t : texts l = Some t → map erase l' = map erase l → l' = l.
Proof.
  revert l' t. induction l as [|nd l IH]; intros l' t Ht E; [by destruct l'|].
  destruct nd as [s| | | |]; try (unfold texts in Ht; simpl in Ht; done).
  apply texts_cons_inv in Ht as (s' & Ht & _). destruct l' as [|nd' l']; [done|].
  simpl in E. injection E as E1 E2. destruct nd'; try done. simpl in E1. injection E1 as ->.
  f_equal. by eapply IH.
Qed.

Lemma map_erase_id l t : texts l = Some t → map erase l = l.
Proof.
  revert t. induction l as [|nd l IH]; intros t Ht; [done|].
  destruct nd as [s| | | |]; try (unfold texts in Ht; simpl in Ht; done).
  apply texts_cons_inv in Ht as (s' & Ht & _). simpl. f_equal. by eapply IH.
Qed.

(** A document that is one line of strings parses to exactly that. *)
Lemma one_line l t d : texts l = Some t → l ≠ [] → starts_blank l = false → wwords true l d →
  go_parse d = PVal (VNode (NSeq [NPara [l]])).
Proof.
  intros Ht Hl Hb Hw. destruct (written_parses [[l]] d) as (ps & Hp & E).
  { by apply wps_last, wp_last. }
  rewrite Hp. simpl in E. destruct ps as [|p [|]]; try done. simpl in E. injection E as E.
  destruct p as [|l' [|]]; try done. simpl in E. injection E as E. by rewrite (texts_erase l l' t).
Qed.

Lemma words_before lx nd c ly v b : nwords b (lx ++ [nd]) → is_run nd = true → all_blank nd = false →
  comment c → ends blank c → valid_utf8 c → wwords b ly v →
  wwords b ((lx ++ [nd]) ++ ly) (sconcat (map show (lx ++ [nd])) +:+ c +:+ v).
Proof.
  intros Hn Hr Hb Hc He Hv Hw. revert Hn. induction lx as [|x lx IH]; intros Hn; simpl in *.
  - inversion Hn as [|b0 nd0 l0 Hw0 Hn0 Hadj]; subst. rewrite sapp_nil_r.
    constructor; [by apply normal_written_all|right; auto|done|done|].
    intros _ ->. inversion Hc as [t bb Ht Hcb E]. by destruct t.
  - inversion Hn as [|b0 nd0 l0 Hw0 Hn0 Hadj]; subst. rewrite sapp_assoc.
    change (show x +:+ sconcat (map show (lx ++ [nd])) +:+ c +:+ v) with
      (show x +:+ "" +:+ (sconcat (map show (lx ++ [nd])) +:+ c +:+ v)).
    constructor; [by apply normal_written_all|by left|apply valid_nil|by apply IH|].
    intros H1 _. specialize (Hadj H1). by destruct lx.
Qed.

Lemma remark_comment b : cbody b → comment ("{-" +:+ b +:+ "-}").
Proof. intros H. by apply (comment_intro ""). Qed.
Lemma valid_comment b : valid_utf8 b → valid_utf8 ("{-" +:+ b +:+ "-}").
Proof. intros H. apply valid_app; [by apply valid_ascii|]. apply valid_app; [done|by apply valid_ascii]. Qed.

Lemma starts_blank_app l1 l2 : l1 ≠ [] → starts_blank (l1 ++ l2) = starts_blank l1.
Proof. by destruct l1 as [|[[]| | | |]]. Qed.

Lemma solid_ne x : solid x → x ≠ "".
Proof. intros (p & a & z & -> & _). by destruct p. Qed.

(** ** Verbatim text *)

Lemma vp_char a ts w u : verb_char a = true → vpieces ts w u →
  ∃ ts', vpieces ts' (String a w) u ∧ sconcat ts' = String a (sconcat ts).
Proof.
  intros Ha Hv. destruct Hv as [u H1 H2|t ts w u H1 H2 H3 H4|ts w u H1 H2].
  - exists [String a ""]. split; [|done]. change (String a "") with (String a "" +:+ "").
    apply vp_run; [done|simpl; by rewrite Ha|done|by constructor].
  - exists (String a t :: ts). split; [|done]. change (String a (t +:+ w)) with (String a t +:+ w).
    apply vp_run; [done|simpl; by rewrite Ha, H2|done|done].
  - exists (String a "" :: "}" :: ts). split; [|done].
    change (String a (String "}" w)) with (String a "" +:+ String "}" w).
    apply vp_run; [done|simpl; by rewrite Ha|done|by constructor].
Qed.

(** No triple of closing braces starts within [t] when followed by [u]. *)
Definition no_close (t u : string) : Prop :=
  ∀ i, i < String.length t → has_prefix "}}}" (sdrop i (t +:+ u)) = false.

Lemma no_close_tail a t u : no_close (String a t) u → no_close t u.
Proof. intros H i Hi. apply (H (S i)). simpl. lia. Qed.

Lemma vpieces_exist t u : line_free t = true → no_close t u →
  ends verb_char u → (starts "}" u = true → starts "}}}" u = true) →
  ∃ ts, vpieces ts t u ∧ sconcat ts = t.
Proof.
  intros Hl Hc Hu1 Hu2. induction t as [|a t IH].
  - exists []. split; [by constructor|done].
  - simpl in Hl. apply andb_true_iff in Hl as [Hl1 Hl2].
    destruct (IH Hl2 (no_close_tail _ _ _ Hc)) as (ts & Hv & Hs).
    destruct (Ascii.eqb_spec a "}") as [-> |Ha].
    + exists ("}" :: ts). split; [|simpl; by rewrite Hs]. constructor; [|done].
      specialize (Hc 0 ltac:(simpl; lia)). cbn [append sdrop has_prefix] in Hc. unfold starts.
      rewrite Ascii.eqb_refl in Hc. exact Hc.
    + destruct (vp_char a ts t u) as (ts' & Hv' & Hs'); [|done|].
      * unfold verb_char, brk. destruct (Ascii.eqb_spec a "}") as [|]; [done|]. by rewrite negb_orb.
      * exists ts'. split; [done|]. by rewrite Hs', Hs.
Qed.

(** [\f] with one argument, as a whole document. *)
Lemma invoke_document f nd w s' : name_ok f → arg None nd w "" s' →
  valid_utf8 w → starts "{" w = true →
  ∃ nd' l, erase nd' = nd ∧
    go_parse (String "\" (f +:+ w)) = PVal (VNode (NSeq [NPara [[NInvoke f [nd'] l]]])).
Proof.
  intros Hf Ha Hv Hw.
  assert (document [[[NInvoke f [nd] noloc]]] (String "\" (f +:+ w))) as Hd.
  { rewrite <- (sapp_nil_l (String _ _)). apply document_intro with (s' := s'); [constructor| |].
    - split; [by apply fresh_no_break; constructor|by apply fresh_no_comment; constructor].
    - rewrite <- (sapp_nil_r (String _ _)). apply paras_last; [|constructor| |by apply stop0_line].
      + rewrite <- (sapp_nil_r (String _ _)). apply para_last; [|by right|by apply stop0_line].
        apply (line_intro None "" [NInvoke f [nd] noloc]); [done|done|done|].
        rewrite <- (sapp_nil_r (String _ _)). apply words_cons with (s1 := s'); [|by constructor; constructor].
        replace (String "\" (f +:+ w)) with ("" +:+ String "\" (f +:+ w) +:+ "") by by rewrite sapp_nil_r.
        apply word_intro; [by apply opt_none, (no_comment_intro "")| |by apply opt_none, (no_comment_intro "")].
        apply core_invoke; [done| |].
        * rewrite !sapp_nil_r. destruct w as [|a w]; [done|].
          unfold starts in Hw. cbn [has_prefix] in Hw. apply andb_true_iff in Hw as [Hw _].
          by apply Ascii.eqb_eq in Hw as <-.
        * rewrite <- (sapp_nil_r w). apply args_cons with (s1 := s'); [done|by constructor].
      + split; [done|by apply (no_comment_intro "")]. }
  destruct (document_parses _ _ Hd) as (ps & Hp & E).
  { change (String "\" (f +:+ w)) with ("\" +:+ (f +:+ w)). apply valid_app; [by apply valid_ascii|].
    apply valid_app; [|done]. destruct Hf. by apply valid_name. }
  destruct ps as [|[|[|nd1 [|]] [|]] [|]]; try done. simpl in E. injection E as E.
  destruct nd1 as [| | | |f' args' l']; try done. simpl in E. injection E as -> E.
  destruct args' as [|nd' [|]]; try done. simpl in E. injection E as E.
  exists nd', l'. by rewrite Hp.
Qed.

(** ** Verbatim blocks *)

(** Lines of a block: indentation and text. *)
Definition bline := (string * string)%type.
Definition bline_ok (x : bline) : Prop :=
  sforall blank x.1 = true ∧ sblank x.2 = false ∧ line_free x.2 = true ∧ no_close x.2 "" ∧ valid_utf8 x.2.

Definition block_text (ls : list bline) : string := sconcat (map (λ x, x.1 +:+ x.2 +:+ nls) ls).

Lemma no_close_break t u : no_close t "" → no_close t (nls +:+ u).
Proof.
  intros H i Hi. specialize (H i Hi). rewrite sapp_nil_r in H.
  revert i Hi H. induction t as [|a t IH]; intros i Hi H.
  - simpl in Hi. lia.
  - destruct i as [|i]; [|simpl; apply IH; [simpl in Hi; lia|done]]. clear IH. cbn [sdrop append] in *.
    destruct t as [|b [|c t]]; cbn [append has_prefix nls] in *.
    + change (Ascii.eqb "}" nl) with false. cbn [andb]. by rewrite andb_false_r.
    + change (Ascii.eqb "}" nl) with false. cbn [andb]. by rewrite !andb_false_r.
    + done.
Qed.

Definition first_indent (ls : list bline) : nat := match ls with x :: _ => String.length x.1 | [] => 0 end.

Lemma texts_strings ts : texts (map NString ts) = Some (sconcat ts).
Proof. induction ts as [|t ts IH]; [done|]. by apply (texts_cons t). Qed.

Lemma block_lines s ls u : Forall bline_ok ls →
  ∃ ns, vlines s ns (block_text ls) u ∧
    Forall2 (λ (x : bline) n, texts n = Some (sdrop (default (first_indent ls) s) x.1 +:+ x.2)) ls ns.
Proof.
  intros H. revert s. induction H as [|[i t] ls (H1 & H2 & H3 & H4 & H5) Hls IH]; intros s.
  { exists []. split; [constructor|done]. }
  simpl in *. set (k := default (String.length i) s).
  destruct (IH (Some k)) as (ns & Hv & Hf).
  destruct (vpieces_exist t (nls +:+ block_text ls +:+ u)) as (ts & Hp & Hs); [done|by apply no_close_break|done|done|].
  exists ((NString (sdrop k i) :: map NString ts) :: ns). split.
  - change (block_text ((i, t) :: ls)) with ((i +:+ t +:+ nls) +:+ block_text ls). rewrite !sapp_assoc.
    apply vl_cons; [done| |done|by left|done|done].
    destruct t; [done|]. simpl in *. done.
  - constructor; [|done]. rewrite <- Hs. apply texts_cons, texts_strings.
Qed.

Lemma valid_block ls : Forall bline_ok ls → valid_utf8 (block_text ls).
Proof.
  induction 1 as [|x ls (H1 & H2 & H3 & H4 & H5) _ IH]; [apply valid_nil|].
  change (block_text (x :: ls)) with ((x.1 +:+ x.2 +:+ nls) +:+ block_text ls).
  apply valid_app; [|done]. apply valid_app; [by apply valid_blanks|]. apply valid_app; [done|by apply valid_ascii].
Qed.

Lemma lines_erase ns ns' (ls : list bline) (f : bline → string) :
  Forall2 (λ x n, texts n = Some (f x)) ls ns → map (map erase) ns' = ns → ns' = ns.
Proof.
  intros H. revert ns'. induction H as [|x n ls ns Hx H IH]; intros ns' E; [by destruct ns'|].
  destruct ns' as [|n' ns']; [done|]. simpl in E. injection E as E1 E2. f_equal; [|by apply IH].
  eapply texts_erase; [done|]. by rewrite (map_erase_id n _ Hx).
Qed.
