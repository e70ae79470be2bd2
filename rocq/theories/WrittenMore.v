(** Encoding of written documents, the printer, escaping and verbatim text. *)
From Coq Require Import Ascii String NArith Lia.
From stdpp Require Import base tactics relations strings numbers list.
From Verif Require Import GoBase Ast Utf8 Peg StrProofs PegBase Descent DescentProofs ParseSpec ParserMain
  Encoding Positions Runs Shape Grammar GrammarProofs GrammarParse Written WrittenProofs.
Local Open Scope string_scope.
Local Open Scope list_scope.

(** ** UTF-8 *)

Lemma valid_nil : valid_utf8 "".
Proof. by exists []. Qed.
Lemma valid_app a b : valid_utf8 a → valid_utf8 b → valid_utf8 (a +:+ b).
Proof.
  intros (xs & Hx & ->) (ys & Hy & ->). exists (xs ++ ys). split; [by apply Forall_app|].
  unfold utf8. by rewrite map_app, sconcat_app.
Qed.
Definition ascii7 (a : ascii) : bool := (N_of_ascii a <? 128)%N.
Lemma valid_ascii s : sforall ascii7 s = true → valid_utf8 s.
Proof.
  induction s as [|a s IH]; intros H; [apply valid_nil|]. simpl in H. apply andb_true_iff in H as [H1 H2].
  change (String a s) with (String a "" +:+ s). apply valid_app; [|by apply IH].
  unfold ascii7 in H1. apply N.ltb_lt in H1. exists [N_of_ascii a]. split.
  - constructor; [left; lia|constructor].
  - unfold utf8, encode. simpl. destruct (N.ltb_spec (N_of_ascii a) 128); [|lia]. simpl. unfold chr.
    by rewrite ascii_N_embedding.
Qed.
Lemma sforall_impl (f g : ascii → bool) s : (∀ a, f a = true → g a = true) → sforall f s = true → sforall g s = true.
Proof.
  intros H. induction s as [|a s IH]; [done|]. simpl. rewrite !andb_true_iff. intros [H1 H2]. auto.
Qed.

Lemma blank_ascii a : blank a = true → ascii7 a = true.
Proof.
  unfold blank. destruct (Ascii.eqb_spec a " ") as [-> |]; [done|].
  by destruct (Ascii.eqb_spec a "009") as [-> |].
Qed.
Lemma name_ascii a : name_char a = true → ascii7 a = true.
Proof.
  unfold name_char, ascii7. destruct (Ascii.eqb_spec a "-") as [-> |]; [done|]. simpl.
  rewrite andb_true_iff, N.leb_le, N.leb_le, N.ltb_lt. lia.
Qed.
Lemma special_ascii a : special a = true → ascii7 a = true.
Proof.
  unfold special. destruct (Ascii.eqb_spec a "\") as [-> |]; [done|].
  destruct (Ascii.eqb_spec a "{") as [-> |]; [done|]. by destruct (Ascii.eqb_spec a "}") as [-> |].
Qed.
Lemma valid_blanks t : sforall blank t = true → valid_utf8 t.
Proof. intros H. eapply valid_ascii, sforall_impl; [|done]. apply blank_ascii. Qed.
Lemma valid_name t : sforall name_char t = true → valid_utf8 t.
Proof. intros H. eapply valid_ascii, sforall_impl; [|done]. apply name_ascii. Qed.
Lemma valid_break t : is_break t → valid_utf8 t.
Proof. intros [->| ->]; by apply valid_ascii. Qed.
Lemma valid_special a : special a = true → valid_utf8 (String a "").
Proof. intros H. apply valid_ascii. simpl. by rewrite special_ascii. Qed.

Ltac vs := repeat first [done | apply valid_app | by apply valid_ascii | by apply valid_break | by apply valid_blanks].

Lemma written_valid_all :
  (∀ b nd w, wword b nd w → valid_utf8 w) ∧ (∀ b l w, wargs b l w → valid_utf8 w) ∧
  (∀ b nd w, warg b nd w → valid_utf8 w) ∧ (∀ b l w, wwords b l w → valid_utf8 w) ∧
  (∀ ls w, wblock ls w → valid_utf8 w) ∧ (∀ b ls w, wpara b ls w → valid_utf8 w) ∧
  (∀ b ps w, wparas b ps w → valid_utf8 w).
Proof.
  apply written_ind; intros; vs.
  - change (valid_utf8 ("\" +:+ String a "")). apply valid_app; [by apply valid_ascii|by apply valid_special].
  - match goal with H : name_ok _ |- _ => destruct H end. by apply valid_name.
Qed.
Lemma written_valid ps d : written ps d → valid_utf8 d.
Proof. apply written_valid_all. Qed.

(** ** Parsing what is written *)

Lemma document_parses ps d : document ps d → valid_utf8 d →
  ∃ ps', go_parse d = PVal (VNode (NSeq (map NPara ps'))) ∧ map (map (map erase)) ps' = ps.
Proof.
  intros Hd Hv. destruct (document_matches _ _ Hd) as (ps' & H1 & H2). exists ps'. split; [|done].
  apply go_parse_val. exists ps'. split_and!; [done|done|by apply clean_valid].
Qed.

Lemma written_parses ps d : written ps d →
  ∃ ps', go_parse d = PVal (VNode (NSeq (map NPara ps'))) ∧
    map (map (map erase)) ps' = map (map (map erase)) ps.
Proof. intros H. apply document_parses; [by apply written_document|by eapply written_valid]. Qed.

(** ** The printer *)

Scheme nword_mind := Minimality for nword Sort Prop
  with nargs_mind := Minimality for nargs Sort Prop
  with narg_mind := Minimality for narg Sort Prop
  with nwords_mind := Minimality for nwords Sort Prop
  with nblock_mind := Minimality for nblock Sort Prop
  with npara_mind := Minimality for npara Sort Prop
  with nparas_mind := Minimality for nparas Sort Prop.
Combined Scheme normal_ind from nword_mind, nargs_mind, narg_mind, nwords_mind, nblock_mind, npara_mind, nparas_mind.

Lemma blank_not_special a : blank a = true → special a = false.
Proof.
  unfold blank. destruct (Ascii.eqb_spec a " ") as [-> |]; [done|].
  by destruct (Ascii.eqb_spec a "009") as [-> |].
Qed.

Lemma show_run t : is_run (NString t) = true → show (NString t) = t.
Proof.
  destruct t as [|a [|x t]]; [done| |done]. simpl. rewrite andb_true_r. intros H.
  apply text_char_facts in H as [-> _]. done.
Qed.
Lemma show_blanks t : sforall blank t = true → show (NString t) = t.
Proof.
  destruct t as [|a [|x t]]; [done| |done]. simpl. rewrite andb_true_r. intros H.
  by rewrite blank_not_special.
Qed.
Lemma show_words l : l ≠ [] → (∀ b, nwords b l → show_arg (NSeq l) = "{" +:+ sconcat (map show l) +:+ "}").
Proof. intros Hl b H. destruct l as [|[]]; try done. inversion H as [|? ? ? Hw]; subst. inversion Hw. Qed.
Lemma show_arg_paras ps : ps ≠ [] → show_arg (NSeq (map NPara ps)) = "{" +:+ nls +:+ show_doc ps +:+ "}".
Proof.
  intros Hps. destruct ps as [|p ps]; [done|]. unfold show_doc. simpl. rewrite !map_map. done.
Qed.

Lemma join_cons sep w l : l ≠ [] → join sep (w :: l) = w +:+ sep +:+ join sep l.
Proof. intros H. destruct l as [|x l]; [done|]. simpl. by rewrite !sapp_assoc. Qed.

Lemma npara_ne b ls : npara b ls → ls ≠ [].
Proof. by intros []. Qed.
Lemma nparas_ne b ps : nparas b ps → ps ≠ [].
Proof. by intros []. Qed.

Lemma normal_written_all :
  (∀ b nd, nword b nd → wword b nd (show nd)) ∧
  (∀ b l, nargs b l → wargs b l (sconcat (map show_arg l))) ∧
  (∀ b nd, narg b nd → warg b nd (show_arg nd)) ∧
  (∀ b l, nwords b l → wwords b l (sconcat (map show l))) ∧
  (∀ ls, nblock ls → wblock ls (sconcat (map (λ l, sconcat (map show l) +:+ nls) ls))) ∧
  (∀ b ls, npara b ls → wpara b ls (show_para ls)) ∧
  (∀ b ps, nparas b ps → wparas b ps (show_doc ps)).
Proof.
  apply normal_ind.
  - intros b t H Hv. rewrite show_run by done. by constructor.
  - intros b a H. simpl. rewrite H. by constructor.
  - intros b. constructor.
  - intros b f args l Hf _ IH. by constructor.
  - intros b. constructor.
  - intros b nd l _ IH1 _ IH2. by constructor.
  - intros b. constructor.
  - intros b ws Hn Hw IH. rewrite (show_words _ Hn b) by done. by constructor.
  - intros b ps Hp IH. rewrite show_arg_paras by by eapply nparas_ne. constructor; [by left|done].
  - intros ls Hf _ IH. apply (wa_block ls nls); [by left|done|done].
  - intros b. constructor.
  - intros b nd l _ IH1 _ IH2 Hr. change (sconcat (map show (nd :: l))) with (show nd +:+ "" +:+ sconcat (map show l)).
    constructor; [done|by left|apply valid_nil|done|auto].
  - constructor.
  - intros i ws ls Hi Hb _ IH1 _ IH2. 
    change (sconcat (map (λ l, sconcat (map show l) +:+ nls) ((NString i :: ws) :: ls)))
      with ((((show (NString i)) +:+ sconcat (map show ws)) +:+ nls) +:+ sconcat (map (λ l, sconcat (map show l) +:+ nls) ls)).
    rewrite show_blanks by done. rewrite !sapp_assoc. constructor; [done..|by left|done].
  - intros b l Hl Hb _ IH. unfold show_para. simpl. rewrite sapp_nil_r. by constructor.
  - intros b l ls Hl Hb _ IH1 Hp IH2. unfold show_para. simpl map.
    rewrite join_cons by (apply npara_ne in Hp; by destruct ls). constructor; [done..|by left|done].
  - intros b p _ IH. unfold show_doc. simpl. rewrite sapp_nil_r. by constructor.
  - intros b p ps _ IH1 Hp IH2. unfold show_doc. simpl map.
    rewrite join_cons by (apply nparas_ne in Hp; by destruct ps). rewrite sapp_assoc.
    constructor; [done|by left| |by apply valid_ascii|done].
    split; [|left; exists nls, ""; split; [by left|done]].
    change nls with (nls +:+ ""). constructor; [by left|constructor].
Qed.
Lemma normal_written ps : normal ps → written ps (show_doc ps).
Proof. apply normal_written_all. Qed.

(** ** Escaped text *)

Definition sblank (t : string) : bool := match t with String a _ => blank a | "" => false end.

(** The last character that is not blank exists and is not special. *)
Definition solid (t : string) : Prop :=
  ∃ p a z, t = p +:+ String a z ∧ blank a = false ∧ special a = false ∧ sforall blank z = true.

Lemma solid_app e r : solid (e +:+ r) → solid r ∨ sforall blank r = true ∧ solid e.
Proof.
  induction e as [|x e IH]; intros (p & a & z & E & H1 & H2 & H3); [left; by exists p, a, z|].
  destruct p as [|y p]; simpl in E; injection E as -> E.
  - right. subst z. rewrite sforall_app in H3. apply andb_true_iff in H3 as [H3 H4]. split; [done|].
    by exists "", a, e.
  - destruct IH as [H|[H (p' & a' & z' & -> & Hs)]]; [by exists p, a, z|by left|]. right. split; [done|].
    by exists (String y p'), a', z'.
Qed.
Lemma solid_not_blank e : solid e → sforall blank e = false.
Proof.
  intros (p & a & z & -> & H & _). rewrite sforall_app. simpl. rewrite H. by rewrite andb_false_r.
Qed.

Lemma texts_cons t l s : texts l = Some s → texts (NString t :: l) = Some (t +:+ s).
Proof. unfold texts. simpl. destruct (mapM _ l); simpl; [|done]. by intros [= <-]. Qed.
Lemma texts_cons_inv t l s : texts (NString t :: l) = Some s → ∃ s', texts l = Some s' ∧ s = t +:+ s'.
Proof. unfold texts. simpl. destruct (mapM _ l); simpl; [|done]. intros [= <-]. eauto. Qed.
Lemma texts_app l1 l2 s1 s2 : texts l1 = Some s1 → texts l2 = Some s2 → texts (l1 ++ l2) = Some (s1 +:+ s2).
Proof.
  revert s1. induction l1 as [|nd l1 IH]; intros s1 H1 H2.
  - unfold texts in H1. simpl in H1. by injection H1 as <-.
  - destruct nd as [t| | | |]; try (unfold texts in H1; simpl in H1; done).
    apply texts_cons_inv in H1 as (s' & H1 & ->). simpl. rewrite sapp_assoc. apply texts_cons. by apply IH.
Qed.

Lemma escape_app a b : escape (a +:+ b) = escape a +:+ escape b.
Proof. induction a as [|x a IH]; [done|]. simpl. rewrite IH. by rewrite sapp_assoc. Qed.
Lemma escape_run t : sforall text_char t = true → escape t = t.
Proof.
  induction t as [|a t IH]; [done|]. simpl. rewrite andb_true_iff. intros [H1 H2].
  apply text_char_facts in H1 as [-> _]. by rewrite IH.
Qed.

Lemma encode_ne x : encode x ≠ "".
Proof. unfold encode. by repeat case_match. Qed.

Lemma byte7 (k : N) : (128 <= k < 256)%N → special (chr k) = false ∧ blank (chr k) = false.
Proof.
  intros Hk. assert (N_of_ascii (chr k) = k) as E by by (apply N_ascii_embedding; lia).
  assert (∀ c, (N_of_ascii c <? 128)%N = true → Ascii.eqb (chr k) c = false) as H.
  { intros c Hc. apply N.ltb_lt in Hc. destruct (Ascii.eqb_spec (chr k) c) as [<- |]; [|done]. lia. }
  unfold special, blank. rewrite !H by done. done.
Qed.

Lemma encode_cases x : scalar x →
  (∃ a, encode x = String a "" ∧ special a = true) ∨ sforall (λ a, negb (special a)) (encode x) = true.
Proof.
  intros Hx. unfold encode.
  assert (x < 1114112)%N as Hx' by (destruct Hx; lia). clear Hx.
  assert (∀ k, (128 <= k < 256)%N → negb (special (chr k)) = true) as H.
  { intros k Hk. by destruct (byte7 k Hk) as [-> _]. }
  assert (∀ y, 128 <= 128 + y mod 64 < 256)%N as Hm.
  { intros y. pose proof (N.mod_lt y 64 ltac:(done)). lia. }
  destruct (N.ltb_spec x 128); [|destruct (N.ltb_spec x 2048); [|destruct (N.ltb_spec x 65536)]].
  - destruct (special (chr x)) eqn:E; [left; eauto|right]. simpl. by rewrite E.
  - right. cbn [sforall]. rewrite !H by (apply Hm || (pose proof (N.div_lt_upper_bound x 64 32 ltac:(done) ltac:(lia)); lia)). done.
  - right. cbn [sforall]. rewrite !H by (apply Hm || (pose proof (N.div_lt_upper_bound x 4096 16 ltac:(done) ltac:(lia)); lia)). done.
  - right. cbn [sforall]. rewrite !H by (apply Hm || (pose proof (N.div_lt_upper_bound x 262144 5 ltac:(done) ltac:(lia)); lia)). done.
Qed.

Lemma line_free_app a b : line_free (a +:+ b) = line_free a && line_free b.
Proof. apply sforall_app. Qed.

Lemma text_of_line e : sforall (λ a, negb (special a)) e = true → line_free e = true → sforall text_char e = true.
Proof.
  unfold line_free. induction e as [|a e IH]; [done|]. simpl. rewrite !andb_true_iff. intros [H1 H2] [[H3 H4] H5].
  split; [|auto]. unfold text_char, brk. rewrite H1. by rewrite negb_orb, H3, H4.
Qed.

Lemma is_run_app e t : e ≠ "" → sforall text_char e = true → sforall text_char t = true → is_run (NString (e +:+ t)) = true.
Proof. intros H1 H2 H3. destruct e as [|a e]; [done|]. cbn [append is_run]. change (sforall text_char (String a e +:+ t) = true).
  by rewrite sforall_app, H2. Qed.

Lemma pieces b xs : Forall scalar xs → line_free (utf8 xs) = true →
  ∃ l, texts l = Some (utf8 xs) ∧ nwords b l ∧ sconcat (map show l) = escape (utf8 xs) ∧
    starts_blank l = sblank (utf8 xs) ∧ (utf8 xs ≠ "" → l ≠ []) ∧
    (utf8 xs ≠ "" → sforall blank (utf8 xs) = true → l = [NString (utf8 xs)]) ∧
    (solid (utf8 xs) → ∃ l' nd, l = l' ++ [nd] ∧ is_run nd = true ∧ all_blank nd = false).
Proof.
  induction 1 as [|x xs Hx Hxs IH]; intros Hl.
  { exists []. split_and!; try done; [constructor|]. intros (p & a & z & E & _). by destruct p. }
  change (utf8 (x :: xs)) with (encode x +:+ utf8 xs) in *. rewrite line_free_app in Hl.
  apply andb_true_iff in Hl as [Hl1 Hl2]. destruct (IH Hl2) as (l & Ht & Hn & Hs & Hb & Hne & Hbl & Hso). clear IH.
  set (r := utf8 xs) in *.
  destruct (encode_cases x Hx) as [(a & E & Ha)|Hns].
  - rewrite E. exists (NString (String a "") :: l).
    assert (blank a = false) as Hba by (destruct (blank a) eqn:Eb; [apply blank_not_special in Eb; congruence|done]).
    split_and!.
    + by apply texts_cons.
    + constructor; [by constructor|done|]. simpl. unfold text_char. by rewrite Ha.
    + simpl. rewrite Ha, Hs. done.
    + simpl. by rewrite Hba.
    + done.
    + simpl. by rewrite Hba.
    + intros [H|[_ H]]%solid_app.
      * destruct (Hso H) as (l' & nd & -> & H1 & H2). by exists (NString (String a "") :: l'), nd.
      * destruct H as (p & y & z & E' & H1 & H2 & H3). destruct p as [|? p]; simpl in E'; [simplify_eq; congruence|].
        by destruct p.
  - assert (sforall text_char (encode x) = true) as Hte by by apply text_of_line.
    assert (encode x ≠ "") as Hen by apply encode_ne.
    assert (valid_utf8 (encode x)) as Hve by (exists [x]; split; [by constructor|]; unfold utf8; simpl; by rewrite sapp_nil_r).
    assert (is_run (NString (encode x)) = true) as Hre.
    { rewrite <- (sapp_nil_r (encode x)). by apply is_run_app. }
    destruct (starts_run l) eqn:Er.
    + destruct l as [|[t| | | |] l]; try done.
      apply texts_cons_inv in Ht as (s' & Ht & Er'). simpl in Er.
      assert (is_run (NString t) = true) as Hrt by done. apply run_facts in Hrt as Hrt'. destruct Hrt' as [Ht1 Ht2].
      inversion Hn as [|b0 nd0 l0 Hw Hn' Hadj]; subst.
      assert (valid_utf8 t) as Hvt.
      { inversion Hw as [| b1 a1 Ha1| |]; subst; [done|]. exfalso. simpl in Ht2. rewrite andb_true_r in Ht2.
        unfold text_char in Ht2. by rewrite Ha1 in Ht2. }
      assert (is_run (NString (encode x +:+ t)) = true) as Hrun by by apply is_run_app.
      exists (NString (encode x +:+ t) :: l). split_and!.
      * rewrite Er', <- sapp_assoc. by apply texts_cons.
      * constructor; [by constructor; [|by apply valid_app]|done|]. intros _. by apply Hadj.
      * cbn [map sconcat] in *. rewrite show_run in * by done. rewrite escape_app, <- Hs, (escape_run (encode x)) by done.
        by rewrite sapp_assoc.
      * destruct (encode x); [done|]. done.
      * done.
      * intros _ Hbl'. rewrite sforall_app in Hbl'. apply andb_true_iff in Hbl' as [_ Hbl'].
        assert (r ≠ "") as Hr0 by (rewrite Er'; by destruct t).
        specialize (Hbl Hr0 Hbl'). injection Hbl as -> ->. done.
      * intros [H|[H1 H2]]%solid_app.
        -- destruct (Hso H) as (l' & nd & E & H1 & H2). destruct l' as [|y l']; simpl in E; injection E as E1 E2.
           ++ subst nd l. exists [], (NString (encode x +:+ t)). split_and!; [done|done|].
              simpl in *. by rewrite sforall_app, H2, andb_false_r.
           ++ subst l. by exists (NString (encode x +:+ t) :: l'), nd.
        -- assert (r ≠ "") as Hr0 by (rewrite Er'; by destruct t).
           specialize (Hbl Hr0 H1). injection Hbl as E1 E2. subst l. exists [], (NString (encode x +:+ t)).
           split_and!; [done|done|]. simpl. by rewrite sforall_app, solid_not_blank.
    + exists (NString (encode x) :: l). split_and!.
      * by apply texts_cons.
      * constructor; [by constructor|done|done].
      * cbn [map sconcat]. rewrite show_run by done. by rewrite escape_app, Hs, (escape_run (encode x)).
      * destruct (encode x); done.
      * done.
      * intros _ Hbl'. rewrite sforall_app in Hbl'. apply andb_true_iff in Hbl' as [_ Hbl'].
        destruct (decide (r = "")) as [E|Hr0].
        -- rewrite E, sapp_nil_r. destruct l as [|nd l]; [done|]. exfalso. rewrite E in Ht.
           inversion Hn as [|b0 nd0 l0 Hw Hn' Hadj]; subst. destruct nd as [t| | | |]; try done.
           apply texts_cons_inv in Ht as (s' & _ & Ht). inversion Hw as [? ? Hr1| | |]; subst.
           ++ apply run_facts in Hr1 as [Hr1 _]. by destruct t.
           ++ done.
        -- exfalso. specialize (Hbl Hr0 Hbl'). subst l. simpl in Er.
           destruct r as [|y r']; [done|]. inversion Hn as [|b0 nd0 l0 Hw Hn' Hadj]; subst.
           inversion Hw as [? ? Hr1|b1 y1 Hsp| |]; subst; [simpl in Hr1; congruence|].
           simpl in Hbl'. rewrite andb_true_r in Hbl'. apply blank_not_special in Hbl'. congruence.
      * intros [H|[H1 H2]]%solid_app.
        -- destruct (Hso H) as (l' & nd & -> & H1 & H2). by exists (NString (encode x) :: l'), nd.
        -- destruct (decide (r = "")) as [E|Hr0].
           ++ exists l, (NString (encode x)). destruct l as [|nd l].
              ** split_and!; [done|done|]. simpl. by apply solid_not_blank.
              ** exfalso. rewrite E in Ht. inversion Hn as [|b0 nd0 l0 Hw Hn' Hadj]; subst. destruct nd as [t| | | |]; try done.
                 apply texts_cons_inv in Ht as (s' & _ & Ht). inversion Hw as [? ? Hr1| | |]; subst.
                 --- apply run_facts in Hr1 as [Hr1 _]. by destruct t.
                 --- done.
           ++ exfalso. specialize (Hbl Hr0 H1). subst l. simpl in Er.
              destruct r as [|y r']; [done|]. inversion Hn as [|b0 nd0 l0 Hw Hn' Hadj]; subst.
              inversion Hw as [? ? Hr1|b1 y1 Hsp| |]; subst; [simpl in Hr1; congruence|].
              simpl in H1. rewrite andb_true_r in H1. apply blank_not_special in H1. congruence.
Qed.
