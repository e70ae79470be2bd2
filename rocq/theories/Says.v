(** What the String() methods say. *)
From Coq Require Import Ascii String Lia.
From stdpp Require Import base tactics relations strings list.
From Verif Require Import GoBase StrProofs Ast Content Section ContentProofs TreeSpec TreeProofs TagProofs QueryProofs HtmlText HtmlProofs BaseFacts Sound StringEnds TextProofs.
Local Open Scope string_scope.
Local Open Scope list_scope.

(** ** Specification *)

Definition eol : string := String "010" "".

(** [core s t]: [t] is [s] without the line feeds at its end. *)
Definition core (s t : string) : Prop :=
  ∃ k, s = t +:+ Nat.iter k (String.append eol) "" ∧ ∀ u, t ≠ u +:+ eol.

(** An item of a list: the lines of its text, without the empty ones at the start;
    all but the first are indented, unless empty. *)
Definition indent (line : string) : string := if String.eqb line "" then "" else "  " +:+ line.
Inductive item_says : string → string → Prop :=
| item_empty t ls : core t (String.concat eol ls) → Forall (λ l, l = "") ls → item_says t ""
| item_lines t es l ls : core t (String.concat eol (es ++ l :: ls)) → Forall (λ l, no_char "010" l = true) (l :: ls) →
    Forall (λ l, l = "") es → l ≠ "" → item_says t (String.concat eol (l :: map indent ls)).

(** The items one after the other, numbered from [k] if the list is ordered. *)
Inductive items_say (ordered : bool) : nat → list string → string → Prop :=
| items_nil k : items_say ordered k [] ""
| items_cons k t ts b s : item_says t b → items_say ordered (S k) ts s →
    items_say ordered k (t :: ts) ((if ordered then dec k +:+ ". " else "* ") +:+ b +:+ eol +:+ eol +:+ s).

(** The sentences of a paragraph, without the empty ones at the start. *)
Inductive para_says : list string → string → Prop :=
| para_empty ts : Forall (λ t, t = "") ts → para_says ts ""
| para_text es t ts : Forall (λ t, t = "") es → t ≠ "" → para_says (es ++ t :: ts) (String.concat " " (t :: ts) +:+ eol +:+ eol).

Section says.
  Context (broken : bool) (h : heap).

  Inductive says : content → string → Prop :=
  | says_string s : says (CString s) s
  | says_seq l ts : say_all l ts → says (CSeq l) (String.concat "" ts)
  | says_para l ts s : say_all l ts → para_says ts s → says (CPara l) s
  | says_pre l ts : say_all l ts → says (CPre l) (String.concat "" (map (λ t, t +:+ eol) ts))
  | says_link x u s : says x s → says (CLink x u) s
  | says_styled st b x ps s : says x s → says (CStyled st b x ps) s
  | says_aux x s : says x s → says (CAux x) s
  | says_toc i : says (CToc i) ""
  | says_target t l ti x : says (CTarget t l ti x) ""
  | says_image p d : says (CImage p d) ("{image: " +:+ p +:+ "}")
  | says_lazy b t : says (CLazy b t) (if b then "<lazy block>" else "<lazy flow>")
  | says_list l o ts s : say_all l ts → items_say o 1 ts s → says (CList l o) s
  | says_table rows tss : say_rows rows tss →
      says (CTable rows) (String.concat "" (map (λ ts, "|" +:+ String.concat "" (map (λ t, " " +:+ t +:+ " |") ts) +:+ eol) tss) +:+ eol)
  | says_defs ds ts : say_defs ds ts →
      says (CDefs ds) (String.concat "" (map (λ t, fst t +:+ ": " +:+ snd t +:+ eol) ts) +:+ eol)
  | says_section i x s : h !! i = Some x → says (s_title x) s →
      says (CSection i) ("{section (" +:+ s_path x +:+ "): " +:+ s +:+ "}")
  (** A reference: its content, or else the title of its tag. *)
  | says_ref sec name x opt l s : says x s → says (CRef sec name (Some x) opt l) s
  | says_ref_title sec name opt l t x s : valid h sec → all_tags h sec (λ n, String.eqb n name) [t] → t_title t = Some x → says x s →
      says (CRef sec name None opt l) s
  | says_ref_unknown sec name l : valid h sec → broken = false → all_tags h sec (λ n, String.eqb n name) [] →
      says (CRef sec name None false l) ("{broken reference: " +:+ name +:+ ": unknown tag '" +:+ name +:+ "'}")
  | says_ref_ambiguous sec name opt l ts : valid h sec → broken = false → all_tags h sec (λ n, String.eqb n name) ts → 1 < length ts →
      says (CRef sec name None opt l) ("{broken reference: " +:+ name +:+ ": ambiguous target for tag '" +:+ name +:+ "'}")
  | says_ref_broken sec name opt l ts : valid h sec → broken = true → all_tags h sec (λ n, String.eqb n name) ts →
      1 < length ts ∨ (ts = [] ∧ opt = false) →
      says (CRef sec name None opt l) ("{broken reference: " +:+ name +:+ "}")
  with say_all : list content → list string → Prop :=
  | say_nil : say_all [] []
  | say_cons x l s ts : says x s → say_all l ts → say_all (x :: l) (s :: ts)
  with say_rows : list (list content) → list (list string) → Prop :=
  | say_rows_nil : say_rows [] []
  | say_rows_cons r rs ts tss : say_all r ts → say_rows rs tss → say_rows (r :: rs) (ts :: tss)
  with say_defs : list (content * content) → list (string * string) → Prop :=
  | say_defs_nil : say_defs [] []
  | say_defs_cons x y ds s t ts : says x s → says y t → say_defs ds ts → say_defs ((x, y) :: ds) ((s, t) :: ts).

  Scheme says_mut := Minimality for says Sort Prop
  with say_all_mut := Minimality for say_all Sort Prop
  with say_rows_mut := Minimality for say_rows Sort Prop
  with say_defs_mut := Minimality for say_defs Sort Prop.
End says.

(** ** Lists and paragraphs *)

Lemma list_text_on t ls : t ≠ "" → list_text t ls = t +:+ sconcat (map (λ l, nls +:+ indent l) ls).
Proof.
  revert t. induction ls as [|l ls IH]; intros t Ht; cbn [list_text map sconcat]; [by rewrite sapp_nil_r|].
  destruct (String.eqb_spec t "") as [|_]; [done|].
  assert (indent l = if String.eqb l "" then "" else "  " +:+ l) as -> by done.
  destruct (String.eqb_spec l "") as [->|Hl].
  - rewrite IH by (destruct t; [done|discriminate]). by rewrite !sapp_assoc.
  - rewrite IH by (destruct t; [done|discriminate]). by rewrite !sapp_assoc.
Qed.
Lemma list_text_skip es ls : Forall (λ l, l = "") es → list_text "" (es ++ ls) = list_text "" ls.
Proof. induction 1 as [|l es -> _ IH]; simpl; done. Qed.
Lemma concat_cons_eol l ls : String.concat eol (l :: ls) = l +:+ sconcat (map (λ l, nls +:+ l) ls).
Proof.
  revert l. induction ls as [|m ls IH]; intros l; [by rewrite sapp_nil_r|].
  change (String.concat eol (l :: m :: ls)) with (l +:+ eol +:+ String.concat eol (m :: ls)).
  rewrite IH. cbn [map sconcat]. by rewrite !sapp_assoc.
Qed.

Lemma trim_right_core s : core s (trim_right nl s).
Proof.
  induction s as [|c s (k & E & N)].
  - exists 0. split; [done|]. intros u. by destruct u.
  - cbn [trim_right]. destruct (Ascii.eqb_spec c nl) as [->|Hc].
    + destruct (String.eqb_spec (trim_right nl s) "") as [E0|E0].
      * rewrite E0 in E. simpl in E. exists (S k). split; [simpl; by rewrite E|]. intros u. by destruct u.
      * exists k. split; [rewrite E at 1; done|]. intros u Hu. destruct u as [|c u]; simpl in Hu; [by injection Hu|].
        injection Hu as _ Hu. by apply (N u).
    + exists k. split; [rewrite E at 1; done|]. intros u Hu. destruct u as [|c' u]; simpl in Hu.
      * injection Hu as Hu _. done.
      * injection Hu as _ Hu. by apply (N u).
Qed.
Lemma trim_right_eols k : trim_right nl (Nat.iter k (String.append eol) "") = "".
Proof. induction k as [|k IH]; [done|]. simpl. by rewrite IH. Qed.
Lemma trim_right_id t : (∀ u, t ≠ u +:+ eol) → ∀ k, trim_right nl (t +:+ Nat.iter k (String.append eol) "") = t.
Proof.
  intros N k. induction t as [|c t IH]; [apply trim_right_eols|]. cbn [String.append trim_right].
  rewrite IH by (intros u ->; by apply (N (String c u))).
  destruct (Ascii.eqb_spec c nl) as [->|Hc]; [|done]. destruct (String.eqb_spec t "") as [->|]; [|done].
  by destruct (N "").
Qed.
Lemma core_trim s t : core s t → trim_right nl s = t.
Proof. intros (k & -> & N). by apply trim_right_id. Qed.

Lemma concat_eol_sjoin ls : String.concat eol ls = sjoin nls ls.
Proof.
  induction ls as [|l ls IH]; [done|]. destruct ls as [|m ls]; [done|].
  change (String.concat eol (l :: m :: ls)) with (l +:+ eol +:+ String.concat eol (m :: ls)). by rewrite sjoin_cons, IH.
Qed.

Lemma item_text t b : item_says t b → list_text "" (ssplit nl (trim_right nl t)) = b.
Proof.
  intros [t0 ls C F|t0 es l ls C F Fe Hl]; rewrite (core_trim _ _ C), concat_eol_sjoin.
  - destruct ls as [|x ls]; [done|].
    rewrite ssplit_sjoin; [|done|eapply Forall_impl; [exact F|by intros ? ->]].
    rewrite <- (app_nil_r (x :: ls)). by rewrite list_text_skip.
  - rewrite ssplit_sjoin.
    + rewrite list_text_skip by done. cbn [list_text]. rewrite String.eqb_refl, list_text_on by done.
      rewrite concat_cons_eol, map_map. done.
    + by destruct es.
    + apply Forall_app. split; [|done]. eapply Forall_impl; [exact Fe|by intros ? ->].
Qed.
Lemma list_says o k ts s : items_say o (S k) ts s → list_string o k ts = s.
Proof.
  intros H. remember (S k) as k' eqn:Hk. revert k Hk. induction H as [k'|k' t ts b s Hb _ IH]; intros k ->; [done|].
  cbn [list_string]. rewrite (item_text _ _ Hb), (IH (k + 1)) by lia. rewrite Nat.add_1_r.
  destruct o; by rewrite !sapp_assoc.
Qed.

(** Every item and paragraph has a text. *)
Lemma split_empties ls : ∃ es r, ls = es ++ r ∧ Forall (λ l : string, l = "") es ∧ match r with [] => True | l :: _ => l ≠ "" end.
Proof.
  induction ls as [|l ls (es & r & -> & F & Hr)]; [by exists [], []|].
  destruct (decide (l = "")) as [->|Hl].
  - exists ("" :: es), r. split; [done|]. split; [by constructor|done].
  - by exists [], (l :: es ++ r).
Qed.
Lemma item_total t : ∃ b, item_says t b.
Proof.
  destruct (split_empties (ssplit nl (trim_right nl t))) as (es & r & E & F & Hr).
  assert (core t (String.concat eol (es ++ r))) as C.
  { rewrite <- E, concat_eol_sjoin. change nls with (String nl ""). rewrite sjoin_ssplit. apply trim_right_core. }
  destruct r as [|l ls].
  - exists "". rewrite app_nil_r in C. by eapply item_empty.
  - eexists. eapply item_lines; [exact C| |done|done].
    pose proof (ssplit_forall_no_char nl (trim_right nl t)) as Hn. rewrite E in Hn. by apply Forall_app in Hn as [_ ?].
Qed.
Lemma items_total o k ts : ∃ s, items_say o k ts s.
Proof.
  revert k. induction ts as [|t ts IH]; intros k; [eexists; constructor|].
  destruct (item_total t) as [b Hb]. destruct (IH (S k)) as [s Hs]. eexists. by constructor.
Qed.

Lemma para_join_on t ts : t ≠ "" → para_join t ts = t +:+ sconcat (map (λ s, " " +:+ s) ts).
Proof.
  revert t. induction ts as [|s ts IH]; intros t Ht; cbn [para_join map sconcat]; [by rewrite sapp_nil_r|].
  destruct (String.eqb_spec t "") as [|_]; [done|]. rewrite IH; [by rewrite !sapp_assoc|by destruct t].
Qed.
Lemma para_text_says ts s : para_says ts s → para_string ts = s.
Proof.
  assert (∀ es r, Forall (λ t : string, t = "") es → para_join "" (es ++ r) = para_join "" r) as Hsk.
  { intros es r. induction 1 as [|l es -> _ IH]; simpl; done. }
  intros [ts0 F|es t r F Ht]; unfold para_string.
  - pose proof (Hsk ts0 [] F) as E. rewrite app_nil_r in E. by rewrite E.
  - rewrite Hsk by done. cbn [para_join]. rewrite String.eqb_refl. cbn [String.append]. rewrite para_join_on by done.
    assert (String.concat " " (t :: r) = t +:+ sconcat (map (λ s, " " +:+ s) r)) as ->.
    { clear. revert t. induction r as [|m r IH]; intros t; [by rewrite sapp_nil_r|].
      change (String.concat " " (t :: m :: r)) with (t +:+ " " +:+ String.concat " " (m :: r)). rewrite IH. cbn [map sconcat].
      by rewrite !sapp_assoc. }
    destruct (String.eqb_spec (t +:+ sconcat (map (λ s, " " +:+ s) r)) "") as [E|_]; [by destruct t|done].
Qed.
Lemma para_total ts : ∃ s, para_says ts s.
Proof.
  destruct (split_empties ts) as (es & r & -> & F & Hr). destruct r as [|t r].
  - exists "". constructor. by rewrite app_nil_r.
  - eexists. by constructor.
Qed.

(** ** All contents *)

Section said.
  Context (similar : string → string → bool) (broken : bool) (h : heap).
  Hypothesis W : wf h.
  Hypothesis O : tags_owned h.
  Notation str := (cstring similar broken h).
  Notation strF := (cstring_F similar broken h).

  Definition jump_at (n : nat) : content → outcome error string := match n with 0 => λ _, NoFuel | S n => str n end.
  Lemma str_at n c : str n c = strF (jump_at n) c.
  Proof. by destruct n. Qed.

  Lemma more n n' c s : str n c = Ok s → n ≤ n' → str n' c = Ok s.
  Proof. intros E L. by eapply str_more. Qed.

  Definition at_least (P : nat → Prop) : Prop := ∃ n0, ∀ n, n0 ≤ n → P n.
  Lemma at_least_and (P Q : nat → Prop) : at_least P → at_least Q → at_least (λ n, P n ∧ Q n).
  Proof. intros [a Ha] [b Hb]. exists (a + b). intros n L. split; [apply Ha|apply Hb]; lia. Qed.
  Lemma at_least_impl (P Q : nat → Prop) : at_least P → (∀ n, P n → Q n) → at_least Q.
  Proof. intros [a Ha] H. exists a. auto. Qed.
  Lemma at_least_all (P : nat → Prop) : (∀ n, P n) → at_least P.
  Proof. intros H. by exists 0. Qed.
  Lemma at_least_jump x s : at_least (λ n, str n x = Ok s) → at_least (λ n, jump_at n x = Ok s).
  Proof. intros [a Ha]. exists (S a). intros [|n] L; [lia|]. apply Ha. lia. Qed.

  Lemma omapM_cons_eq {A B} (f : A → outcome error B) x l : omapM f (x :: l) = obind (λ y, obind (λ ys, Ok (y :: ys)) (omapM f l)) (f x).
  Proof. done. Qed.

  Lemma ref_tag_none sec name l opt (ts : list tag) : valid h sec → all_tags h sec (λ n, String.eqb n name) ts →
    1 < length ts ∨ (ts = [] ∧ opt = false) →
    ∃ e, resolve similar h sec name opt l = Err e ∧
      error_text e = (if Nat.eqb (length ts) 0 then "unknown tag '" else "ambiguous target for tag '") +:+ name +:+ "'".
  Proof.
    intros V A Hb. destruct (resolve_spec similar h sec name opt l ts W V O A) as (_ & H0 & H2). destruct Hb as [Hb|[-> ->]].
    - destruct (H2 Hb) as (f & ds & locs & -> & _). eexists. split; [done|]. destruct (Nat.eqb_spec (length ts) 0); [lia|]. done.
    - destruct (H0 eq_refl) as (f & sim & -> & _). eexists. split; done.
  Qed.

  Lemma said c s : says broken h c s → at_least (λ n, str n c = Ok s).
  Proof.
    apply (says_mut broken h (λ c s, at_least (λ n, str n c = Ok s))
      (λ l ts, at_least (λ n, omapM (strF (jump_at n)) l = Ok ts))
      (λ l ts, at_least (λ n, omapM (λ r, omapM (strF (jump_at n)) r) l = Ok ts))
      (λ l ts, at_least (λ n, omapM (λ sd : content * content,
         match sd with
         | (s, d) =>
           obind (λ a, obind (λ b, Ok (a +:+ ": " +:+ b +:+ nls)%string) (fmt_s (strF (jump_at n) d)))
             (fmt_s (strF (jump_at n) s))
         end) l = Ok (map (λ t, fst t +:+ ": " +:+ snd t +:+ eol) ts)))); clear c s;
      try (intros; apply at_least_all; intros n; rewrite str_at; done); try (by apply at_least_all).
    - intros l ts _ H. apply (at_least_impl _ _ H). intros n E. rewrite str_at. cbn [cstring_F]. rewrite E. cbn [obind].
      by rewrite concat_sconcat.
    - intros l ts s _ H Hp. apply (at_least_impl _ _ H). intros n E. rewrite str_at. cbn [cstring_F]. rewrite E. cbn [obind].
      by rewrite (para_text_says _ _ Hp).
    - intros l ts _ H. apply (at_least_impl _ _ H). intros n E. rewrite str_at. cbn [cstring_F]. rewrite E. cbn [obind].
      by rewrite concat_sconcat.
    - intros x u s _ H. apply (at_least_impl _ _ H). intros n. by rewrite !str_at.
    - intros st b x ps s _ H. apply (at_least_impl _ _ H). intros n. by rewrite !str_at.
    - intros x s _ H. apply (at_least_impl _ _ H). intros n. by rewrite !str_at.
    - intros l o ts s _ H Hp. apply (at_least_impl _ _ H). intros n E. rewrite str_at. cbn [cstring_F]. rewrite E. cbn [obind].
      by rewrite (list_says _ _ _ _ Hp).
    - intros rows tss _ H. apply (at_least_impl _ _ H). intros n E. rewrite str_at. cbn [cstring_F].
      match goal with |- obind _ ?o = _ => change o with (omapM (λ r, omapM (strF (jump_at n)) r) rows) end. rewrite E. cbn [obind].
      rewrite concat_sconcat. f_equal. f_equal. f_equal. apply map_ext. intros ts. by rewrite concat_sconcat.
    - intros ds ts _ H. apply (at_least_impl _ _ H). intros n E. rewrite str_at. cbn [cstring_F].
      match goal with |- obind _ ?o = _ => match type of E with ?o' = _ => change o with o' end end. rewrite E. cbn [obind].
      by rewrite concat_sconcat.
    - intros i x s Hx _ H%at_least_jump. apply (at_least_impl _ _ H). intros n E. rewrite str_at. cbn [cstring_F]. rewrite Hx, E. done.
    - intros sec name x opt l s _ H. apply (at_least_impl _ _ H). intros n. by rewrite !str_at.
    - intros sec name opt l t x s V A Ht _ H%at_least_jump. apply (at_least_impl _ _ H). intros n E. rewrite str_at. cbn [cstring_F].
      destruct (resolve_spec similar h sec name opt l [t] W V O A) as (H1 & _). unfold ref_tag. by rewrite (H1 t eq_refl), Ht.
    - intros sec name l V Hbr A. apply at_least_all. intros n. rewrite str_at. cbn [cstring_F]. unfold ref_tag. rewrite Hbr.
      destruct (ref_tag_none sec name l false [] V A) as (e & -> & Ee); [by right|]. rewrite Ee. cbn [length Nat.eqb]. by rewrite !sapp_assoc.
    - intros sec name opt l ts V Hbr A Hl. apply at_least_all. intros n. rewrite str_at. cbn [cstring_F]. unfold ref_tag. rewrite Hbr.
      destruct (ref_tag_none sec name l opt ts V A) as (e & -> & Ee); [by left|]. rewrite Ee.
      destruct (Nat.eqb_spec (length ts) 0); [lia|]. by rewrite !sapp_assoc.
    - intros sec name opt l ts V Hbr A Hl. exists 1. intros [|n] L; [lia|]. rewrite str_at. cbn [cstring_F]. unfold ref_tag. rewrite Hbr.
      destruct (ref_tag_none sec name l opt ts V A) as (e & -> & Ee); [done|]. cbn [t_title broken_tag jump_at]. by rewrite str_at.
    - intros x l s ts _ H _ H'. apply (at_least_impl _ _ (at_least_and _ _ H H')). intros n [E E']. rewrite str_at in E.
      by rewrite omapM_cons_eq, E, E'.
    - intros r rs ts tss _ H _ H'. apply (at_least_impl _ _ (at_least_and _ _ H H')). intros n [E E'].
      by rewrite omapM_cons_eq, E, E'.
    - intros x y ds s t ts _ H1 _ H2 _ H'. apply (at_least_impl _ _ (at_least_and _ _ (at_least_and _ _ H1 H2) H')).
      intros n [[E1 E2] E']. rewrite str_at in E1, E2. by rewrite omapM_cons_eq, E1, E2, E'.
  Qed.

  (** Whatever String() gives is said. *)
  Lemma say_list_exists l : (∀ x, x ∈ l → ∃ s, says broken h x s) → ∃ ts, say_all broken h l ts.
  Proof.
    induction l as [|x l IH]; intros H; [eexists; constructor|].
    destruct (H x) as [s Hs]; [by left|]. destruct IH as [ts Hts]; [intros y Hy; apply H; by right|].
    eexists. by constructor.
  Qed.

  Context (T : sturdy h).
  Lemma says_exists jump : (∀ c s, sound (length h) c = true → jump c = Ok s → ∃ s', says broken h c s') →
    (∀ c, sound (length h) c = true → jump c ≠ Panic) →
    ∀ c s, sound (length h) c = true → strF jump c = Ok s → ∃ s', says broken h c s'.
  Proof.
    intros Hj Hp c.
    induction c as [s|l IH|l IH|l IH|sec t rc o l IH|c t IH|s|s|st b c ps IH IHps|t l ti x IHt IHx|p d|l o IH|rows IH|defs IH|b t|c IH]
      using content_ind'; intros r Hc Hs; cbn [sound cstring_F] in Hc, Hs; try done; try (by eexists; constructor).
    1,2,3,7: apply obind_Ok_inv in Hs as (ss & Hs & _); rewrite forallb_Forall in Hc; rewrite Forall_forall in IH, Hc;
      destruct (say_list_exists l) as [ts Hts];
      [intros x Hx; destruct (omapM_elem _ _ _ x Hs Hx) as [? ?]; eapply IH; [done|by apply Hc|eassumption]|].
    - eexists. by constructor.
    - destruct (para_total ts) as [r' ?]. eexists. by econstructor.
    - eexists. by constructor.
    - destruct (items_total o 1 ts) as [r' ?]. eexists. by econstructor.
    - rewrite !andb_true_iff, Nat.ltb_lt, negb_true_iff in Hc. destruct Hc as [[Hsec ->] Hrc]. destruct rc as [c|].
      + destruct (IH r) as [s' ?]; [done..|]. eexists. by constructor.
      + destruct (filter_tags_all h (λ n, String.eqb n t) sec W Hsec) as (ts & _ & A).
        destruct ts as [|u [|u' ts]].
        * destruct broken eqn:Hbr; eexists; [by eapply says_ref_broken; eauto|by eapply says_ref_unknown].
        * destruct (resolve_spec similar h sec t false l [u] W Hsec O A) as (H1 & _). specialize (H1 u eq_refl).
          pose proof (sturdy_ref_tag similar broken h sec t l T Hsec) as Hr. unfold ref_tag in Hs, Hr. rewrite H1 in Hs, Hr.
          destruct Hr as (c & Ec & Hcs). rewrite Ec in Hs. destruct (Hj c r) as [s' ?]; [done..|]. eexists. by eapply says_ref_title.
        * destruct broken eqn:Hbr; eexists; [eapply says_ref_broken; eauto; left; simpl; lia|eapply says_ref_ambiguous; eauto; simpl; lia].
    - destruct (IH r) as [s' ?]; [done..|]. eexists. by constructor.
    - apply andb_true_iff in Hc as [Hc _]. destruct (IH r) as [s' ?]; [done..|]. eexists. by constructor.
    - apply obind_Ok_inv in Hs as (ss & Hs & _). rewrite forallb_Forall in Hc. rewrite Forall_forall in IH, Hc.
      assert (∃ tss, say_rows broken h rows tss) as [tss ?]; [|eexists; by constructor].
      assert (∀ rs, (∀ r, r ∈ rs → r ∈ rows) → ∃ tss, say_rows broken h rs tss) as G; [|by apply G].
      intros rs. induction rs as [|x rs IHr]; intros Hin; [eexists; constructor|].
      destruct IHr as [tss ?]; [intros y Hy; apply Hin; by right|].
      assert (x ∈ rows) as Hx by (apply Hin; by left).
      destruct (omapM_elem _ _ _ x Hs Hx) as [? Hsx]. specialize (IH x Hx). specialize (Hc x Hx).
      rewrite forallb_Forall in Hc. rewrite Forall_forall in IH, Hc.
      destruct (say_list_exists x) as [ts ?]; [|eexists; by constructor].
      intros y Hy. destruct (omapM_elem _ _ _ y Hsx Hy) as [? ?]. eapply IH; [done|by apply Hc|eassumption].
    - apply obind_Ok_inv in Hs as (ss & Hs & _). rewrite forallb_Forall in Hc. rewrite Forall_forall in IH, Hc.
      assert (∃ tss, say_defs broken h defs tss) as [tss ?]; [|eexists; by constructor].
      assert (∀ rs, (∀ r, r ∈ rs → r ∈ defs) → ∃ tss, say_defs broken h rs tss) as G; [|by apply G].
      intros rs. induction rs as [|x rs IHr]; intros Hin; [eexists; constructor|].
      destruct IHr as [tss ?]; [intros y Hy; apply Hin; by right|].
      assert (x ∈ defs) as Hx by (apply Hin; by left).
      destruct (omapM_elem _ _ _ x Hs Hx) as [? Hsx]. specialize (IH x Hx). specialize (Hc x Hx). destruct x as [a b].
      simpl in *. apply andb_true_iff in Hc as [Ha Hb]. destruct IH as [IHa IHb].
      apply obind_Ok_inv in Hsx as (sa & Hsa & Hsx). apply obind_Ok_inv in Hsx as (sb & Hsb & _).
      apply fmt_Ok_inv in Hsa; [|by apply cstring_F_no_panic]. apply fmt_Ok_inv in Hsb; [|by apply cstring_F_no_panic].
      destruct (IHa sa) as [? ?]; [done..|]. destruct (IHb sb) as [? ?]; [done..|]. eexists. by constructor.
    - destruct (IH r) as [s' ?]; [done..|]. eexists. by constructor.
  Qed.

  Lemma said_only n c s : sound (length h) c = true → str n c = Ok s → says broken h c s.
  Proof.
    intros Hc E. assert (∃ s', says broken h c s') as [s' H].
    { revert c s Hc E. induction n as [|n IH]; intros c s Hc E; cbn [cstring] in E.
      - eapply says_exists; [| |done|done]; done.
      - eapply says_exists; [exact IH| |done|done]. intros x Hx. by apply cstring_no_panic. }
    destruct (said _ _ H) as [n0 Hn0]. assert (s = s') as ->; [|done].
    eapply str_unique; [exact E|exact (Hn0 n0 (le_n _))].
  Qed.
End said.
