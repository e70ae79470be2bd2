(** Templates are escaped as HtmlRead.v says. *)
From Coq Require Import Ascii String Lia.
From stdpp Require Import base tactics strings list.
From Verif Require Import GoBase StrProofs Html Tmpl TmplInd TmplEsc TmplEscProofs HtmlRead.
Local Open Scope string_scope. Local Open Scope list_scope.

(** ** Characters and names *)

Lemma blank_iff c : html_blank c ↔ is_html_sp c = true.
Proof.
  unfold html_blank, is_html_sp, is_sp. rewrite !elem_of_cons, elem_of_nil, !orb_true_iff, !Ascii.eqb_eq. naive_solver.
Qed.
Lemma not_blank c : ¬ html_blank c → is_html_sp c = false.
Proof. rewrite blank_iff. by destruct (is_html_sp c). Qed.
Lemma in_cons c x s : c ∈ list_ascii_of_string (String x s) ↔ c = x ∨ c ∈ list_ascii_of_string s.
Proof. simpl. apply elem_of_cons. Qed.
Lemma in_app c a b : c ∈ list_ascii_of_string (a +:+ b) ↔ c ∈ list_ascii_of_string a ∨ c ∈ list_ascii_of_string b.
Proof.
  induction a as [|x a IH]; [rewrite sapp_nil_l; simpl; rewrite elem_of_nil; tauto|]. rewrite sapp_cons, !in_cons, IH. tauto.
Qed.
Lemma has_char c s : has (String c "") s ↔ c ∈ list_ascii_of_string s.
Proof.
  split.
  - intros (a & z & ->). rewrite in_app. right. apply in_cons. by left.
  - induction s as [|x s IH]; [by intros ?%elem_of_nil|]. rewrite in_cons. intros [->|H]; [by exists "", s|].
    destruct (IH H) as (a & z & ->). by exists (String x a), z.
Qed.
Lemma contains_has p s : contains_str p s = true ↔ has p s.
Proof.
  induction s as [|x s IH]; cbn [contains_str]; rewrite orb_true_iff.
  - split.
    + intros [H|H]; [|done]. apply has_prefix_spec in H as [z Hz]. by exists "", z.
    + intros (a & z & E). left. apply has_prefix_spec. destruct a; [by exists z|done].
  - rewrite IH, has_prefix_spec. split.
    + intros [[z ->]|(a & z & ->)]; [by exists "", z|by exists (String x a), z].
    + intros (a & z & E). destruct a as [|y a]; [left; by exists z|]. injection E as -> ->. right. by exists a, z.
Qed.
Lemma contains_not p s : ¬ has p s → contains_str p s = false.
Proof. rewrite <- contains_has. by destruct (contains_str p s). Qed.
Lemma begins_prefix p s : has_prefix p s = true ↔ begins p s.
Proof. apply has_prefix_spec. Qed.
Lemma begins_not p s : ¬ begins p s → has_prefix p s = false.
Proof. rewrite <- begins_prefix. by destruct (has_prefix p s). Qed.

Lemma split_char_at q v s : ¬ has (String q "") v → split_char q (v +:+ String q s) = (v, Some s).
Proof.
  induction v as [|x v IH]; intros H.
  - simpl. by rewrite Ascii.eqb_refl.
  - rewrite sapp_cons. cbn [split_char]. rewrite has_char, in_cons in H. destruct (Ascii.eqb_spec x q) as [->|]; [exfalso; tauto|].
    rewrite IH; [done|]. rewrite has_char. tauto.
Qed.
Lemma split_char_none q v : ¬ has (String q "") v → split_char q v = (v, None).
Proof.
  induction v as [|x v IH]; intros H; [done|]. cbn [split_char]. rewrite has_char, in_cons in H.
  destruct (Ascii.eqb_spec x q) as [->|]; [exfalso; tauto|]. rewrite IH; [done|]. rewrite has_char. tauto.
Qed.

(** *** Attributes *)

Definition kind (name : string) : akind :=
  if existsb (String.eqb name) url_attrs then AUrl
  else if existsb (String.eqb name) ["style"; "srcset"] then AOther
  else if existsb (String.eqb name) ["srcdoc"; "srclang"] then ANone
  else if has_prefix "on" name then AOther
  else if contains_str "src" name || contains_str "uri" name || contains_str "url" name then AUrl
  else ANone.
Lemma local_kind a n : local a n → attr_kind a = kind n.
Proof.
  destruct 1 as [n|n|ns n Hx Hc Hd|n Hc Hd]; unfold attr_kind; cbv zeta; fold (kind n).
  - assert (has_prefix "data-" ("data-" +:+ n) = true) as -> by (apply has_prefix_spec; by exists n). done.
  - rewrite begins_not by (by intros [z Hz]).
    change ("xmlns:" +:+ n) with ("xmlns" +:+ String ":" n). rewrite split_char_at; [done|]. rewrite has_char. apply (bool_decide_unpack _). vm_compute. exact I.
  - rewrite begins_not by done. change (ns +:+ ":" +:+ n) with (ns +:+ String ":" n). rewrite split_char_at by done.
    destruct (String.eqb_spec ns "xmlns"); [done|]. done.
  - rewrite begins_not by done. by rewrite split_char_none.
Qed.
Lemma local_total a : ∃ n, local a n.
Proof.
  destruct (has_prefix "data-" a) eqn:E; [apply has_prefix_spec in E as [z ->]; eexists; constructor|].
  assert (¬ begins "data-" a) as Hd by (rewrite <- begins_prefix, E; done).
  destruct (contains_str ":" a) eqn:C.
  - apply contains_has, has_char in C.
    assert (∃ ns n, a = ns +:+ ":" +:+ n ∧ ¬ has ":" ns) as (ns & n & -> & Hn).
    { clear -C. induction a as [|x a IH]; [by apply elem_of_nil in C|]. destruct (Ascii.eqb_spec x ":") as [->|Hx].
      - exists "", a. split; [done|]. rewrite has_char. apply not_elem_of_nil.
      - apply in_cons in C as [C|C]; [congruence|]. destruct (IH C) as (ns & n & -> & Hn). exists (String x ns), n. split; [done|].
        rewrite has_char, in_cons in *. intros [H|H]; [congruence|done]. }
    destruct (String.eqb_spec ns "xmlns") as [->|]; eexists; [apply (l_xmlns n)|by apply l_space].
  - exists a. constructor; [|done]. rewrite <- contains_has, C. done.
Qed.
Lemma mem_in (n : string) l : existsb (String.eqb n) l = true ↔ n ∈ l.
Proof. rewrite existsb_exists. split; [intros (x & H & E%String.eqb_eq); subst; by apply elem_of_list_In|intros H; exists n; split; [by apply elem_of_list_In|apply String.eqb_refl]]. Qed.
Lemma mem_out (n : string) l : n ∉ l → existsb (String.eqb n) l = false.
Proof. rewrite <- mem_in. by destruct (existsb _ l). Qed.
Lemma coded_dec n : coded n ∨ ¬ coded n.
Proof.
  unfold coded. destruct (String.eqb_spec n "style"); [tauto|]. destruct (String.eqb_spec n "srcset"); [tauto|].
  rewrite <- begins_prefix. destruct (has_prefix "on" n); [tauto|]. right. intros [?|[?|?]]; done.
Qed.
Lemma url_not_coded n : n ∈ url_names → ¬ coded n.
Proof.
  intros H. unfold url_names in H. rewrite !elem_of_cons, elem_of_nil in H.
  intros [->|[->|[z ->]]].
  - naive_solver.
  - naive_solver.
  - repeat (destruct H as [H|H]; [discriminate H|]). done.
Qed.
Lemma kind_url n : n ∈ url_names → kind n = AUrl.
Proof. intros H. unfold kind. change url_attrs with url_names. apply mem_in in H. by rewrite H. Qed.
Lemma kind_coded n : coded n → kind n = AOther.
Proof.
  intros H. unfold kind. change url_attrs with url_names. rewrite mem_out by (intros Hu; by apply (url_not_coded n)).
  destruct H as [->|[->|H]]; [done|done|]. destruct (existsb _ ["style"; "srcset"]); [done|].
  destruct H as [z ->]. simpl. done.
Qed.
Lemma kind_rest n : n ∉ url_names → ¬ coded n →
  kind n = if existsb (String.eqb n) ["srcdoc"; "srclang"] then ANone
           else if contains_str "src" n || contains_str "uri" n || contains_str "url" n then AUrl else ANone.
Proof.
  intros Hu Hc. unfold kind. change url_attrs with url_names. rewrite (mem_out n url_names) by done.
  rewrite (mem_out n ["style"; "srcset"]) by (rewrite !elem_of_cons, elem_of_nil; intros [->|[->|[]]]; apply Hc; [by left|by right; left]).
  rewrite (begins_not "on" n) by (intros H; apply Hc; by right; right). done.
Qed.
Lemma is_attr_kind w a : is_attr w a → attr_kind (smap lower w) = a.
Proof.
  destruct 1 as [w (n & Hl & H)|w (n & Hl & H)|w Hu Hc]; unfold low in *.
  - rewrite (local_kind _ _ Hl). destruct (mem_in n url_names) as [_ Hm]. destruct (existsb (String.eqb n) url_names) eqn:E.
    { by apply kind_url, mem_in. }
    destruct H as [H|(Hc & Ho & H)]; [by apply kind_url|]. rewrite kind_rest; [|intros Hx; by apply Hm in Hx|done].
    rewrite (mem_out n ["srcdoc"; "srclang"]) by done. rewrite <- !contains_has in H. destruct H as [->|[->| ->]]; rewrite ?orb_true_r; done.
  - rewrite (local_kind _ _ Hl). by apply kind_coded.
  - destruct (local_total (smap lower w)) as [n Hl]. rewrite (local_kind _ _ Hl).
    assert (n ∉ url_names) as Hn by (intros H; apply Hu; exists n; tauto).
    assert (¬ coded n) as Hn' by (intros H; apply Hc; by exists n).
    rewrite kind_rest by done. destruct (existsb _ ["srcdoc"; "srclang"]) eqn:E; [done|].
    destruct (contains_str "src" n || contains_str "uri" n || contains_str "url" n) eqn:E'; [|done]. exfalso. apply Hu. exists n. split; [done|]. right.
    split; [done|]. split; [rewrite <- mem_in, E; done|]. rewrite !orb_true_iff, !contains_has in E'. tauto.
Qed.
Lemma is_elem_of w e : is_elem w e → elem_of w = e.
Proof.
  unfold elem_of. destruct 1 as [w H|w H|w H|w H|w H]; unfold low in H; cbv zeta.
  1-4: by rewrite H.
  rewrite !elem_of_cons, elem_of_nil in H.
  destruct (String.eqb_spec (smap lower w) "script"); [tauto|]. destruct (String.eqb_spec (smap lower w) "style"); [tauto|].
  destruct (String.eqb_spec (smap lower w) "textarea"); [tauto|]. destruct (String.eqb_spec (smap lower w) "title"); [tauto|]. done.
Qed.

(** ** Reading *)

Lemma skip_blanks sp s : html_blanks sp → (match s with String c _ => ¬ html_blank c | "" => True end) → skip_sp (sp +:+ s) = (sp, s).
Proof.
  induction sp as [|x sp IH]; intros H Hs.
  - rewrite sapp_nil_l. destruct s as [|c s]; [done|]. simpl. by rewrite (not_blank c Hs).
  - rewrite sapp_cons. cbn [skip_sp]. assert (is_html_sp x = true) as -> by (apply blank_iff, H, in_cons; by left).
    rewrite IH; [done|intros c Hc; apply H, in_cons; by right|done].
Qed.
Lemma alnum_eq c : is_lower c || is_upper c || is_digit c = alnum c.
Proof. done. Qed.
Lemma sep_facts c : c = ":"%char ∨ c = "-"%char → alnum c = false ∧ (Ascii.eqb c ":" || Ascii.eqb c "-") = true.
Proof. by intros [->| ->]. Qed.
Lemma tag_rest_reads w s : tag_rest w → name_ends s → tag_name (w +:+ s) = (w, s).
Proof.
  intros H Hs. induction H as [|c w Hc _ IH|c d w Hc Hd _ IH].
  - rewrite sapp_nil_l. destruct s as [|c s]; [done|]. destruct Hs as [Hs|[->| ->]]; [|done|done].
    unfold html_blank in Hs. rewrite !elem_of_cons, elem_of_nil in Hs. destruct Hs as [->|[->|[->|[->|[->|[]]]]]]; done.
  - rewrite sapp_cons. cbn [tag_name]. rewrite alnum_eq, Hc, IH. done.
  - rewrite !sapp_cons. destruct (sep_facts c Hc) as [H1 H2]. cbn [tag_name]. rewrite !alnum_eq, H1, H2, Hd.
    rewrite IH. done.
Qed.
Lemma tag_reads w s : tag_word w → name_ends s → eat_tag_name (w +:+ s) = (w, s).
Proof.
  intros (c & r & -> & Hc & Hr) Hs. rewrite sapp_cons. cbn [eat_tag_name]. unfold letter in Hc. rewrite Hc.
  rewrite <- sapp_cons. apply tag_rest_reads; [|done]. constructor; [|done]. unfold alnum, letter. by rewrite Hc.
Qed.
Definition attr_ends (s : string) : Prop := match s with "" => True | String c _ => html_blank c ∨ c = "="%char ∨ c = ">"%char end.
Lemma attr_reads w s : attr_word w → attr_ends s → attr_name (w +:+ s) = Some (w, s).
Proof.
  intros [_ H] Hs. induction w as [|x w IH].
  - rewrite sapp_nil_l. destruct s as [|c s]; [done|]. cbn [attr_name]. destruct Hs as [Hs|[->| ->]]; [|done|done].
    apply blank_iff in Hs as ->. done.
  - rewrite sapp_cons. cbn [attr_name]. destruct (H x) as [Hb Hx]; [apply in_cons; by left|]. rewrite (not_blank x Hb).
    rewrite !elem_of_cons, elem_of_nil in Hx. destruct (Ascii.eqb_spec x "="); [tauto|]. destruct (Ascii.eqb_spec x ">"); [tauto|].
    destruct (Ascii.eqb_spec x "'"); [tauto|]. destruct (Ascii.eqb_spec x """"); [tauto|]. destruct (Ascii.eqb_spec x "<"); [tauto|]. cbn [orb].
    rewrite IH; [done|]. intros c Hc. apply H, in_cons. by right.
Qed.

Definition ctx (c : spot) : hctx :=
  match c with
  | InText => HText | InPlain e => HRcdata e | InCode e => HRaw e | InTag e => HTag e | InName e => HAttrName e ANone
  | InEq e a => HBeforeValue e a | InValue e a q u => HValue e a q u
  end.
Definition et (c : hctx) (s : string) := esc_text (4 + 4 * len s) c s.
Lemma et_n n c s : 4 * len s + rank c < n → esc_text n c s = et c s.
Proof. intros H. apply esc_text_fuel; [done|]. destruct c; cbn [rank]; lia. Qed.
Lemma et_nil c : et c "" = Some ("", c).
Proof. done. Qed.
Lemma et_unfold c x r : ∃ n, n = 3 + 4 * len (String x r) ∧ et c (String x r) = esc_text (S n) c (String x r).
Proof. by eexists. Qed.
Ltac et_open n Hn := 
  lazymatch goal with |- context [et ?c (String ?x ?r)] => destruct (et_unfold c x r) as (n & Hn & ->); cbn [len] in Hn; cbn [esc_text] end.

Lemma et_char x s : x ≠ "<"%char → et HText (String x s) = prepend (String x "") (et HText s).
Proof. intros H. et_open n Hn. destruct (Ascii.eqb_spec x "<"); [done|]. by rewrite et_n by (cbn [rank]; lia). Qed.
Lemma et_doctype s : et HText ("<!DOCTYPE" +:+ s) = prepend "<" (et HText ("!DOCTYPE" +:+ s)).
Proof.
  change ("<!DOCTYPE" +:+ s) with (String "<" ("!DOCTYPE" +:+ s)). et_open n Hn. rewrite Ascii.eqb_refl.
  change (has_prefix "!--" ("!DOCTYPE" +:+ s)) with false. cbn iota.
  change (has_prefix "<!DOCTYPE" (smap upper (String "<" ("!DOCTYPE" +:+ s)))) with true. cbn.
  rewrite et_n; [done|]. cbn [rank]. change (len ("!DOCTYPE" +:+ s)) with (8 + len s) in Hn. cbn [len]. lia.
Qed.
Lemma tag_word_first w s : tag_word w → ∃ c r, w +:+ s = String c r ∧ c ≠ "/"%char ∧ c ≠ "!"%char.
Proof.
  intros (c & r & -> & Hc & _). exists c, (r +:+ s). split; [done|]. split; intros ->; done.
Qed.
Lemma et_open_tag w e s : tag_word w → is_elem w e → name_ends s → et HText ("<" +:+ w +:+ s) = prepend ("<" +:+ w) (et (HTag e) s).
Proof.
  intros Hw He Hs. change ("<" +:+ w +:+ s) with (String "<" (w +:+ s)). et_open n Hn. rewrite Ascii.eqb_refl.
  destruct (tag_word_first w s Hw) as (c & r & E & H1 & H2).
  assert (has_prefix "!--" (w +:+ s) = false) as ->.
  { rewrite E. apply begins_not. intros [z Hz]. injection Hz as -> _. done. }
  assert ((match w +:+ s with String d r' => if Ascii.eqb d "/" then ("/", r') else ("", w +:+ s) | "" => ("", w +:+ s) end) = ("", w +:+ s)) as ->.
  { rewrite E. destruct (Ascii.eqb_spec c "/"); done. }
  rewrite tag_reads by done. rewrite (is_elem_of w e He). cbn [String.eqb].
  rewrite slength_app in Hn. destruct Hw as (c' & r' & -> & _). cbn iota. cbn [len] in Hn. rewrite et_n by (cbn [rank]; lia). done.
Qed.
Lemma et_close_tag w s : tag_word w → name_ends s → et HText ("</" +:+ w +:+ s) = prepend ("</" +:+ w) (et (HTag LNone) s).
Proof.
  intros Hw Hs. change ("</" +:+ w +:+ s) with (String "<" (String "/" (w +:+ s))). et_open n Hn. rewrite Ascii.eqb_refl.
  change (has_prefix "!--" (String "/" (w +:+ s))) with false. cbn iota. rewrite Ascii.eqb_refl.
  rewrite tag_reads by done. cbn [len] in Hn. rewrite slength_app in Hn. destruct Hw as (c' & r' & -> & _). cbn iota. cbn [len] in Hn. rewrite et_n by (cbn [rank]; lia). done.
Qed.
Lemma prepend_assoc a b o : prepend (a +:+ b) o = prepend a (prepend b o).
Proof. unfold prepend. destruct o as [[x c]|]; [|done]. cbn. by rewrite sapp_assoc. Qed.
Lemma prepend_nil o : prepend "" o = o.
Proof. by destruct o as [[x c]|]. Qed.

Lemma et_tag_blank e x s : html_blank x → et (HTag e) (String x s) = prepend (String x "") (et (HTag e) s).
Proof.
  intros H. et_open n Hn. cbn [skip_sp]. apply blank_iff in H. rewrite H. destruct (skip_sp s) as [a b] eqn:E.
  destruct s as [|y s].
  - injection E as <- <-. done.
  - et_open m Hm. rewrite E. destruct b as [|z b]; [done|]. pose proof (skip_sp_len _ _ _ E) as L. cbn [len] in L, Hn.
    destruct (Ascii.eqb z ">").
    + rewrite !et_n by (destruct e; cbn [content_of rank]; lia). apply (prepend_assoc (String x "")).
    + destruct (attr_name (String z b)) as [[name r]|] eqn:A; [|done]. pose proof (attr_name_len _ _ _ A) as L'. cbn [len] in L'. unfold base.mbind, option_bind.
      destruct name as [|n0 name]; [done|]. destruct r as [|r0 r]; [done|]. rewrite !et_n by (cbn [rank len] in *; lia). apply (prepend_assoc (String x "")).
Qed.
Lemma et_tag_end e s : et (HTag e) (">" +:+ s) = prepend ">" (et (content_of e) s).
Proof.
  change (">" +:+ s) with (String ">" s). et_open n Hn. cbn. rewrite et_n by (destruct e; cbn [content_of rank]; lia). done.
Qed.
Lemma attr_first w s : attr_word w → ∃ c r, w +:+ s = String c r ∧ ¬ html_blank c ∧ Ascii.eqb c ">" = false.
Proof.
  intros [Hne H]. destruct w as [|c w]; [done|]. exists c, (w +:+ s). split; [done|]. destruct (H c) as [Hb Hc]; [apply in_cons; by left|]. split; [done|].
  rewrite !elem_of_cons in Hc. destruct (Ascii.eqb_spec c ">"); [tauto|done].
Qed.
Lemma et_name e w a s : attr_word w → attr_ends s → s ≠ "" → attr_kind (smap lower w) = a →
  et (HTag e) (w +:+ s) = prepend w (et (HAfterName e a) s).
Proof.
  intros Hw Hs Hne Ha. destruct (attr_first w s Hw) as (c & r & E & Hb & Hg).
  pose proof (attr_reads w s Hw Hs) as Hr. pose proof (slength_app w s) as Hl. rewrite E in Hr, Hl |- *. et_open n Hn.
  pose proof (skip_blanks "" (String c r)) as Hsk. rewrite sapp_nil_l in Hsk. rewrite Hsk; [|by intros ? ?%elem_of_nil|done]. rewrite Hg. rewrite Hr. unfold base.mbind, option_bind.
  destruct Hw as [Hw _]. destruct w as [|w0 w]; [done|]. rewrite Ha. destruct s as [|s0 s]; [done|]. cbn [len] in Hl. rewrite et_n by (cbn [rank len] in *; lia). done.
Qed.
Lemma et_after_eq e a sp s : html_blanks sp → et (HAfterName e a) (sp +:+ "=" +:+ s) = prepend (sp +:+ "=") (et (HBeforeValue e a) s).
Proof.
  intros Hsp. assert (skip_sp (sp +:+ "=" +:+ s) = (sp, String "=" s)) as Hk.
  { apply skip_blanks; [done|]. apply (bool_decide_unpack _). vm_compute. exact I. }
  pose proof (slength_app sp ("=" +:+ s)) as Hl. cbn [len] in Hl. destruct (sp +:+ "=" +:+ s) as [|x r] eqn:E; [by destruct sp|]. et_open n Hn. rewrite Hk. rewrite Ascii.eqb_refl.
  change (len ("=" +:+ s)) with (S (len s)) in Hl. cbn [len] in Hl. rewrite et_n by (cbn [rank]; lia). done.
Qed.
Lemma et_blanks_tag e sp s : html_blanks sp → et (HTag e) (sp +:+ s) = prepend sp (et (HTag e) s).
Proof.
  induction sp as [|x sp IH]; intros H.
  - unfold prepend. rewrite sapp_nil_l. destruct (et (HTag e) s) as [[b c]|]; done.
  - rewrite sapp_cons, et_tag_blank by (apply H, in_cons; by left). rewrite IH by (intros c Hc; apply H, in_cons; by right). symmetry. apply (prepend_assoc (String x "")).
Qed.
Lemma et_after_flag e a s : flag_ends s → et (HAfterName e a) s = et (HTag e) s.
Proof.
  intros [[z ->]|(sp & c & r & -> & Hne & Hsp & Hc & Hq)].
  - change (">" +:+ z) with (String ">" z) at 1. et_open n Hn. cbn [skip_sp]. assert (is_html_sp ">" = false) as -> by done. assert (Ascii.eqb ">" "=" = false) as -> by done. cbn iota.
    rewrite et_n by (cbn [rank len]; lia). apply prepend_nil.
  - assert (skip_sp (sp +:+ String c r) = (sp, String c r)) as Hk by by apply skip_blanks.
    rewrite (et_blanks_tag e sp) by done. pose proof (slength_app sp (String c r)) as Hl. destruct (sp +:+ String c r) as [|x r'] eqn:E; [by destruct sp|]. et_open n Hn. rewrite Hk.
    destruct (Ascii.eqb_spec c "="); [done|]. destruct sp; [done|]. cbn [len] in Hl. rewrite et_n by (cbn [rank len]; lia). done.
Qed.

Lemma et_eq_blank e a x s : html_blank x → et (HBeforeValue e a) (String x s) = prepend (String x "") (et (HBeforeValue e a) s).
Proof.
  intros H. et_open n Hn. cbn [skip_sp]. apply blank_iff in H. rewrite H. destruct (skip_sp s) as [y b] eqn:E.
  destruct s as [|z s].
  - injection E as <- <-. done.
  - et_open m Hm. rewrite E. destruct b as [|q b]; [done|]. pose proof (skip_sp_len _ _ _ E) as L. cbn [len] in L, Hn.
    destruct (Ascii.eqb q """" || Ascii.eqb q "'"); [|done].
    rewrite !et_n by (cbn [rank]; lia). apply (prepend_assoc (String x "")).
Qed.
Lemma et_quote e a q s : q = "'"%char ∨ q = """"%char → et (HBeforeValue e a) (String q s) = prepend (String q "") (et (HValue e a q UNone) s).
Proof.
  intros H. et_open n Hn. assert (skip_sp (String q s) = ("", String q s)) as -> by by destruct H as [->| ->].
  assert (Ascii.eqb q """" || Ascii.eqb q "'" = true) as -> by by destruct H as [->| ->]. rewrite et_n by (cbn [rank]; lia). done.
Qed.
Lemma et_value_end e a q u v s : ¬ has (String q "") v → et (HValue e a q u) (v +:+ String q s) = prepend (v +:+ String q "") (et (HTag e) s).
Proof.
  intros H. pose proof (split_char_at q v s H) as Hk. pose proof (slength_app v (String q s)) as Hl. destruct (v +:+ String q s) as [|x r] eqn:E; [by destruct v|].
  et_open n Hn. rewrite Hk. cbn [len] in Hl. rewrite et_n by (cbn [rank]; lia). done.
Qed.
Lemma blanks_forall s : html_blanks s ↔ sforall is_html_sp s = true.
Proof.
  induction s as [|x s IH]; cbn [sforall]; [split; [done|]; intros _ c Hc; by apply elem_of_nil in Hc|].
  rewrite andb_true_iff, <- IH, <- blank_iff. split.
  - intros H. split; [apply H, in_cons; by left|]. intros c Hc. apply H, in_cons. by right.
  - intros [Hx H] c Hc. apply in_cons in Hc as [->|Hc]; [done|by apply H].
Qed.
Lemma url_part_moves u v u' : moves AUrl u v u' → url_part u v = u'.
Proof.
  unfold url_part. inversion 1 as [a0 u0 v0 Hne|u0 v0 Hq|v0 Hb|v0 H1 H2 Hb|u0 v0 H1 H2 Hu]; subst; [done|..].
  - rewrite <- !contains_has in Hq. destruct Hq as [-> | ->]; [done|]. by rewrite orb_true_r.
  - assert (¬ has "#" v ∧ ¬ has "?" v) as [H1 H2].
    { rewrite !has_char. split; intros Hc%Hb; revert Hc; apply (bool_decide_unpack _); vm_compute; exact I. }
    rewrite !contains_not by done. by apply blanks_forall in Hb as ->.
  - rewrite !contains_not by done. rewrite blanks_forall in Hb. by destruct (sforall is_html_sp v).
  - rewrite !contains_not by done. by destruct u'.
Qed.
Lemma et_value e a q u v u' : ¬ has (String q "") v → v ≠ "" → (a = AUrl → ¬ has "&" v) → moves a u v u' →
  et (HValue e a q u) v = Some (v, HValue e a q u').
Proof.
  intros Hq Hne Ha Hm. pose proof (split_char_none q v Hq) as Hk. destruct v as [|x r]; [done|]. et_open n Hn. rewrite Hk. destruct a.
  - by inversion Hm; subst.
  - rewrite contains_not by by apply Ha. by rewrite (url_part_moves _ _ _ Hm).
  - by inversion Hm; subst.
Qed.

Lemma not_ends e x s : x ≠ "<"%char → ends_element e (String x s) = false.
Proof.
  intros H. unfold ends_element. cbv zeta. rewrite begins_not; [done|]. intros [z Hz]. cbn [smap] in Hz. injection Hz as Hx _. apply H. clear -Hx.
  destruct x as [[] [] [] [] [] [] [] []]; vm_compute in Hx; congruence.
Qed.
Lemma split_end_plain e t : ¬ has "<" t → split_end e t = (t, None).
Proof.
  induction t as [|x t IH]; intros H.
  - by destruct e.
  - rewrite has_char, in_cons in H. cbn [split_end]. rewrite not_ends by (intros ->; tauto). rewrite IH; [done|]. rewrite has_char. tauto.
Qed.
Lemma smap_low_app a b : smap lower (a +:+ b) = smap lower a +:+ smap lower b.
Proof. induction a as [|x a IH]; [done|]. rewrite !sapp_cons. cbn [smap]. rewrite IH. done. Qed.
Lemma len_low a : len (smap lower a) = len a.
Proof. induction a as [|x a IH]; [done|]. cbn [smap len]. by rewrite IH. Qed.
Lemma elem_name_low w e : is_elem w e → e ≠ LNone → elem_name e = low w.
Proof. by destruct 1. Qed.
Lemma sdrop_all a s : sdrop (len a) (a +:+ s) = s.
Proof. induction a as [|x a IH]; [by destruct s|]. done. Qed.
Lemma ends_here e w s : is_elem w e → e ≠ LNone → name_ends s → s ≠ "" → ends_element e ("</" +:+ w +:+ s) = true.
Proof.
  intros He Hn Hs Hne. unfold ends_element. cbv zeta. rewrite (elem_name_low w e He Hn). unfold low. apply andb_true_iff. split.
  - apply has_prefix_spec. exists (smap lower s). change ("</" +:+ w +:+ s) with (("</" +:+ w) +:+ s). by rewrite !smap_low_app.
  - change ("</" +:+ w +:+ s) with (("</" +:+ w) +:+ s). assert (len ("</" +:+ smap lower w) = len ("</" +:+ w)) as -> by by rewrite !slength_app, len_low.
    rewrite sdrop_all. destruct s as [|c s]; [done|]. destruct Hs as [Hs|[->| ->]]; [|done|done]. apply blank_iff in Hs as ->. done.
Qed.
Lemma split_end_at e t w s : ¬ has "<" t → is_elem w e → e ≠ LNone → name_ends s → s ≠ "" → split_end e (t +:+ "</" +:+ w +:+ s) = (t, Some ("</" +:+ w +:+ s)).
Proof.
  intros Ht He Hn Hs Hne. induction t as [|x t IH].
  - rewrite sapp_nil_l. pose proof (ends_here e w s He Hn Hs Hne) as Hx. change ("</" +:+ w +:+ s) with (String "<" ("/" +:+ w +:+ s)) in *. cbn [split_end]. by rewrite Hx.
  - rewrite has_char, in_cons in Ht. rewrite sapp_cons. cbn [split_end]. rewrite not_ends by (intros ->; tauto). rewrite IH; [done|]. rewrite has_char. tauto.
Qed.
Lemma escape_lt_plain t : ¬ has "<" t → escape_lt t = t.
Proof.
  induction t as [|x t IH]; intros H; [done|]. rewrite has_char, in_cons in H. cbn [escape_lt]. destruct (Ascii.eqb_spec x "<") as [->|]; [tauto|].
  rewrite IH; [done|]. rewrite has_char. tauto.
Qed.
Lemma blanks_no_lt t : html_blanks t → ¬ has "<" t.
Proof. intros H. rewrite has_char. intros Hc%H. revert Hc. apply (bool_decide_unpack _). vm_compute. exact I. Qed.

Lemma ctx_inside e : ctx (inside e) = content_of e.
Proof. by destruct e. Qed.
Lemma flag_attr s : flag_ends s → attr_ends s ∧ s ≠ "".
Proof.
  intros [[z ->]|(sp & c & r & -> & Hne & Hsp & _)]; [split; [by right; right|done]|].
  destruct sp as [|x sp]; [done|]. split; [|done]. left. apply Hsp, in_cons. by left.
Qed.

Lemma reads_et c s c' : reads c s c' → et (ctx c) s = Some (s, ctx c').
Proof.
  induction 1 as [c|x s c Hx _ IH|s c _ IH|w e s c Hw He Hs _ IH|w s c Hw Hs _ IH|e x s c Hx _ IH|e s c _ IH|e w a sp s c Hw Ha Hsp _ IH|e w s c Hw Hs _ IH|e s c Hs _ IH
    |e a x s c Hx _ IH|e a q s c Hq _ IH|e a q u v s c Hq _ IH|e a q u v u' Hq Hv Ha Hm|e t Ht|e t w s c Ht He Hn Hs Hne _ IH|e t Ht|e t w s c Ht He Hn Hs Hne _ IH]; cbn [ctx] in *.
  - apply et_nil.
  - by rewrite et_char, IH by done.
  - rewrite et_doctype. change ("!DOCTYPE" +:+ s) with (String "!" (String "D" (String "O" (String "C" (String "T" (String "Y" (String "P" (String "E" s)))))))).
    rewrite !et_char by done. rewrite IH. done.
  - rewrite (et_open_tag w e) by done. rewrite IH. done.
  - rewrite et_close_tag by done. rewrite IH. done.
  - by rewrite et_tag_blank, IH by done.
  - rewrite et_tag_end, <- ctx_inside, IH. done.
  - rewrite (et_name e w a); [|done| |by destruct sp|by apply is_attr_kind].
    + rewrite et_after_eq by done. rewrite IH. cbn. rewrite sapp_assoc. done.
    + destruct sp as [|x sp]; [by right; left|]. left. apply Hsp, in_cons. by left.
  - destruct (flag_attr s Hs) as [Hs1 Hs2]. rewrite (et_name e w _ s Hw Hs1 Hs2 eq_refl), et_after_flag by done. rewrite IH. done.
  - destruct (flag_attr s Hs) as [Hs1 Hs2]. destruct s as [|x r]; [done|]. et_open n Hn.
    assert (attr_name (String x r) = Some ("", String x r)) as ->.
    { cbn [attr_name]. destruct Hs1 as [Hs1|[->| ->]]; [|done|done]. apply blank_iff in Hs1 as ->. done. }
    unfold base.mbind, option_bind. rewrite prepend_nil. rewrite et_n by (cbn [rank len]; lia). by rewrite et_after_flag.
  - by rewrite et_eq_blank, IH by done.
  - by rewrite et_quote, IH by done.
  - rewrite et_value_end, IH by done. cbn. rewrite sapp_assoc. done.
  - by apply et_value.
  - destruct t as [|x t]; [done|]. et_open n Hn. rewrite split_end_plain, escape_lt_plain by done. done.
  - pose proof (split_end_at e t w s Ht He Hn Hs Hne) as Hk. pose proof (slength_app t ("</" +:+ w +:+ s)) as Hl. destruct (t +:+ "</" +:+ w +:+ s) as [|x r] eqn:E; [by destruct t|].
    et_open n Hn'. rewrite Hk. cbn [len] in Hl. rewrite et_n by (cbn [rank]; lia). rewrite IH, escape_lt_plain by done. cbn. by rewrite <- E.
  - destruct t as [|x t]; [done|]. et_open n Hn. rewrite split_end_plain by by apply blanks_no_lt. by apply blanks_forall in Ht as ->.
  - pose proof (split_end_at e t w s (blanks_no_lt t Ht) He Hn Hs Hne) as Hk. pose proof (slength_app t ("</" +:+ w +:+ s)) as Hl. destruct (t +:+ "</" +:+ w +:+ s) as [|x r] eqn:E; [by destruct t|].
    et_open n Hn'. rewrite Hk. cbn [len] in Hl. apply blanks_forall in Ht as ->. rewrite et_n by (cbn [rank]; lia). rewrite IH. cbn. by rewrite <- E.
Qed.

(** ** Actions *)

Lemma stands_place c y c' : stands c y c' → place_in (ctx c) = Some (y, ctx c').
Proof. by destruct 1. Qed.
Lemma code_place c : code_spot c → place_in (ctx c) = None.
Proof. by destruct 1. Qed.
Lemma ctx_inj c c' : ctx c = ctx c' → c = c'.
Proof. destruct c, c'; cbn; intros E; inversion E; subst; done. Qed.
Lemma meet_join c1 c2 c : meet c1 c2 c → join_ctx (ctx c1) (ctx c2) = Some (ctx c).
Proof.
  unfold join_ctx. destruct 1 as [c|e|e].
  - by rewrite decide_True.
  - rewrite decide_False by done. by rewrite decide_True.
  - rewrite decide_False by done. by rewrite decide_True.
Qed.
Lemma no_meet_join c1 c2 : (∀ c, ¬ meet c1 c2 c) → join_ctx (ctx c1) (ctx c2) = None.
Proof.
  intros H. unfold join_ctx. destruct (decide (ctx c1 = ctx c2)) as [E|_]; [apply ctx_inj in E as ->; by destruct (H c2 (m_same c2))|].
  destruct (decide (nudge (ctx c1) = nudge (ctx c2))) as [E|_]; [|done]. exfalso.
  destruct c1, c2; cbn in E; inversion E; subst; first [by eapply H, m_same|by eapply H, m_left|by eapply H, m_right].
Qed.

Lemma placed_esc : (∀ c x x' c', placed1 c x x' c' → esc_node (ctx c) x = Some (x', ctx c')) ∧
  (∀ c l l' c', placed c l l' c' → esc_list esc_node (ctx c) l = Some (l', ctx c')).
Proof.
  apply placed_all.
  - intros c s c' H. cbn [esc_node]. apply reads_et in H. unfold et in H. by rewrite H.
  - intros c x p y c' H. cbn [esc_node]. by rewrite (stands_place _ _ _ H).
  - done.
  - intros c p t e t' e' c1 c2 c' _ Ht _ He Hm. cbn [esc_node]. rewrite Ht. unfold base.mbind, option_bind. rewrite He. by rewrite (meet_join _ _ _ Hm).
  - intros c p t e t' e' c1 c2 c' _ Ht _ He Hm. cbn [esc_node]. rewrite Ht. unfold base.mbind, option_bind. rewrite He. by rewrite (meet_join _ _ _ Hm).
  - intros c vs p t e t' e' c1 c2 c' _ Ht _ Ht2 _ He Hm. cbn [esc_node]. rewrite Ht. unfold base.mbind, option_bind. rewrite Ht2, (meet_join _ _ _ (m_same c1)), He.
    by rewrite (meet_join _ _ _ Hm).
  - done.
  - done.
  - intros c x x' c1 l l' c' _ Hx _ Hl. cbn [esc_list]. rewrite Hx, Hl. done.
Qed.
Lemma wrong_esc : (∀ c x, wrong1 c x → esc_node (ctx c) x = None) ∧ (∀ c l, wrong c l → esc_list esc_node (ctx c) l = None).
Proof.
  destruct placed_esc as [P1 P].
  apply wrong_all.
  - intros c x p H. cbn [esc_node]. by rewrite (code_place _ H).
  - intros c p t e _ H. cbn [esc_node]. by rewrite H.
  - intros c p t e _ H. cbn [esc_node]. destruct (esc_list esc_node (ctx c) t) as [[t' c0]|]; [|done]. unfold base.mbind, option_bind. by rewrite H.
  - intros c p t e t' e' c1 c2 Ht He Hm. cbn [esc_node]. rewrite (P _ _ _ _ Ht). unfold base.mbind, option_bind. rewrite (P _ _ _ _ He). by rewrite (no_meet_join _ _ Hm).
  - intros c p t e _ H. cbn [esc_node]. by rewrite H.
  - intros c p t e _ H. cbn [esc_node]. destruct (esc_list esc_node (ctx c) t) as [[t' c0]|]; [|done]. unfold base.mbind, option_bind. by rewrite H.
  - intros c p t e t' e' c1 c2 Ht He Hm. cbn [esc_node]. rewrite (P _ _ _ _ Ht). unfold base.mbind, option_bind. rewrite (P _ _ _ _ He). by rewrite (no_meet_join _ _ Hm).
  - intros c vs p t e _ H. cbn [esc_node]. by rewrite H.
  - intros c vs p t e _ H. cbn [esc_node]. destruct (esc_list esc_node (ctx c) t) as [[t' c0]|]; [|done]. unfold base.mbind, option_bind.
    destruct (esc_list esc_node c0 t) as [[t'' c1]|]; [|done]. destruct (join_ctx c0 c1); [|done]. by rewrite H.
  - intros c vs p t e t' e' c1 c2 Ht Ht2 He Hm. cbn [esc_node]. rewrite (P _ _ _ _ Ht). unfold base.mbind, option_bind. rewrite (P _ _ _ _ Ht2), (meet_join _ _ _ (m_same c1)).
    rewrite (P _ _ _ _ He). by rewrite (no_meet_join _ _ Hm).
  - intros c x l _ H. cbn [esc_list]. by rewrite H.
  - intros c x x' c1 l Hx _ H. cbn [esc_list]. rewrite (P1 _ _ _ _ Hx), H. done.
Qed.

Lemma placed_tree t t' : placed InText t t' InText → esc_tree t = Some t'.
Proof. intros H. unfold esc_tree. change HText with (ctx InText). rewrite (proj2 placed_esc _ _ _ _ H). done. Qed.
Lemma wrong_tree t : wrong InText t → esc_tree t = None.
Proof. intros H. unfold esc_tree. change HText with (ctx InText). rewrite (proj2 wrong_esc _ _ H). done. Qed.
Lemma open_tree t t' c : placed InText t t' c → c ≠ InText → esc_tree t = None.
Proof.
  intros H Hc. unfold esc_tree. change HText with (ctx InText) at 1. rewrite (proj2 placed_esc _ _ _ _ H). unfold base.mbind, option_bind. destruct c; done.
Qed.
