(** What the bundled HTML templates write, read back. *)
From Coq Require Import Ascii String Lia.
From stdpp Require Import base tactics strings list.
From Verif Require Import GoBase StrProofs Ast Content Section Render ContentProofs Html HtmlSpec.
Local Open Scope string_scope. Local Open Scope list_scope.

Lemma read_app s t : ∀ st st' st'' ts ts', read st s = Some (st', ts) → read st' t = Some (st'', ts') →
  read st (s +:+ t) = Some (st'', ts ++ ts').
Proof.
  induction s as [|c s IH]; intros st st' st'' ts ts' H1 H2.
  - injection H1 as -> <-. done.
  - cbn [append read] in *. destruct (tstep st c) as [[st1 t1]|]; [|done].
    destruct (read st1 s) as [[st2 t2]|] eqn:E; [|done]. injection H1 as -> <-.
    rewrite (IH _ _ _ _ _ E H2). by rewrite (assoc_L (++)).
Qed.

Lemma balance_app a b : ∀ st st', balance st a = Some st' → balance st (a ++ b) = balance st' b.
Proof.
  induction a as [|t a IH]; intros st st' H; [by injection H as ->|].
  destruct t; simpl in *; eauto. destruct st as [|m st]; [done|]. destruct (String.eqb m name); [eauto|done].
Qed.

(** ** Strings that open and close elements *)

Definition goes (a b : list string) (s : string) : Prop :=
  ∃ ts, read SText s = Some (SText, ts) ∧ (∀ st, balance (a ++ st) ts = Some (b ++ st)) ∧ Forall from_template ts.
Notation good := (goes [] []).

Lemma goes_app a b c s t : goes a b s → goes b c t → goes a c (s +:+ t).
Proof.
  intros (ts & H1 & H2 & H3) (ts' & H1' & H2' & H3'). exists (ts ++ ts').
  split_and!; [by eapply read_app| |by apply Forall_app].
  intros st. rewrite (balance_app _ _ _ _ (H2 st)). apply H2'.
Qed.
Lemma goes_under k a b s : goes a b s → goes (a ++ k) (b ++ k) s.
Proof. intros (ts & H1 & H2 & H3). exists ts. split_and!; [done| |done]. intros st. rewrite <- !(assoc_L (++)). apply H2. Qed.
Lemma good_under k s : good s → goes k k s.
Proof. apply (goes_under k [] []). Qed.
Lemma goes_nil k : goes k k "".
Proof. exists []. by split_and!. Qed.

Lemma good_tokens s : good s → ∃ ts, tokens s = Some ts ∧ balanced ts ∧ Forall from_template ts.
Proof.
  intros (ts & H1 & H2 & H3). exists ts. unfold tokens, balanced. rewrite H1. split_and!; [done|apply (H2 [])|done].
Qed.

(** ** Literal pieces of templates *)

Definition safe_tokenb (t : token) : bool :=
  match t with
  | TChar _ => true
  | TOpen n l => bool_decide (n ∈ element_names) &&
      forallb (λ a, bool_decide (a ∈ [("class", "aside"); ("class", "inset"); ("class", "section-header"); ("class", "section-number");
                ("style", "margin: 0 2em 1em"); ("style", "font-size: 120%"); ("style", "font-size: 80%");
                ("style", "text-decoration: line-through")])) l
  | TClose n => bool_decide (n ∈ element_names)
  | TVoid n l => bool_decide (n = "meta") && bool_decide (l = [("http-equiv", "content-type");
                ("content", "text/html; charset=utf-8")])
  | TDoctype d => String.eqb d "DOCTYPE html"
  end.
Lemma safe_tokenb_spec t : safe_tokenb t = true → from_template t.
Proof.
  destruct t as [c|n l|n|n l|d]; simpl; [done|..].
  - intros [H1%bool_decide_eq_true H2]%andb_true_iff. split; [done|].
    rewrite forallb_forall in H2. apply Forall_forall. intros [a v] Ha.
    apply elem_of_list_In, H2, bool_decide_eq_true in Ha. right. right. right.
    rewrite !elem_of_cons in *. naive_solver.
  - by intros H%bool_decide_eq_true.
  - intros [H1%bool_decide_eq_true H2%bool_decide_eq_true]%andb_true_iff. subst. split; [by right|].
    repeat constructor; right; right; right; rewrite !elem_of_cons; naive_solver.
  - intros H%String.eqb_eq. done.
Qed.

(** Decides [goes a b s] for literals: the markup never looks below [a]. *)
Fixpoint balance_lit (a : list string) (ts : list token) : option (list string) :=
  match ts with
  | [] => Some a
  | TOpen n _ :: ts => balance_lit (n :: a) ts
  | TClose n :: ts => match a with m :: a => if String.eqb m n then balance_lit a ts else None | [] => None end
  | _ :: ts => balance_lit a ts
  end.
Lemma balance_lit_spec ts : ∀ a b st, balance_lit a ts = Some b → balance (a ++ st) ts = Some (b ++ st).
Proof.
  induction ts as [|t ts IH]; intros a b st H; [by injection H as ->|].
  destruct t; simpl in *; eauto.
  - apply (IH (name :: a)). done.
  - destruct a as [|m a]; [done|]. simpl. destruct (String.eqb m name); [eauto|done].
Qed.
Definition lit_ok (a b : list string) (s : string) : bool :=
  match read SText s with
  | Some (SText, ts) => forallb safe_tokenb ts && bool_decide (balance_lit a ts = Some b)
  | _ => false
  end.
Lemma lit a b s : lit_ok a b s = true → goes a b s.
Proof.
  unfold lit_ok. destruct (read SText s) as [[[] ts]|] eqn:E; try done.
  intros [H1 H2%bool_decide_eq_true]%andb_true_iff. exists ts. split_and!; [done|..].
  - intros st. by apply balance_lit_spec.
  - rewrite forallb_forall in H1. apply Forall_forall. intros t Ht. apply safe_tokenb_spec, H1. by apply elem_of_list_In.
Qed.

(** ** Escaped text *)

(** What stands for a NUL. *)
Definition fffd : string := String "239" (String "191" (String "189" "")).
Fixpoint unnul (s : string) : string :=
  match s with "" => "" | String c s => (if Ascii.eqb c "000" then fffd else String c "") +:+ unnul s end.

Ltac chars c := destruct c as [[] [] [] [] [] [] [] []]; vm_compute.

Lemma escape_char_text c : ∃ ts, read SText (escape_char c) = Some (SText, ts) ∧
  Forall (λ t, match t with TChar _ => True | _ => False end) ts ∧
  ts = map TChar (list_ascii_of_string (if Ascii.eqb c "000" then fffd else String c "")).
Proof. eexists. split_and!; [|..|reflexivity]. by chars c. by chars c; repeat constructor. Qed.

Lemma read_escape s : read SText (escape s) = Some (SText, map TChar (list_ascii_of_string (unnul s))).
Proof.
  induction s as [|c s IH]; [done|]. cbn [escape unnul].
  destruct (escape_char_text c) as (ts & H1 & _ & ->). erewrite read_app; [|done..].
  f_equal. f_equal. rewrite <- map_app. f_equal. by destruct (Ascii.eqb c "000").
Qed.

Lemma balance_chars l : ∀ st, balance st (map TChar l) = Some st.
Proof. induction l as [|c l IH]; intros st; [done|]. apply IH. Qed.

Lemma good_escape s : good (escape s).
Proof.
  eexists. split_and!; [apply read_escape|intros st; apply balance_chars|].
  apply Forall_forall. intros t (c & -> & _)%elem_of_list_fmap. done.
Qed.

(** ** Attribute values *)

Lemma read_escape_char_value n l a v c :
  read (SValue n l a v) (escape_char c) = Some (SValue n l a (v +:+ (if Ascii.eqb c "000" then fffd else String c "")), []).
Proof.
  chars c; try reflexivity; rewrite ?sapp_assoc; reflexivity.
Qed.

Lemma read_escape_value s : ∀ n l a v,
  read (SValue n l a v) (escape s) = Some (SValue n l a (v +:+ unnul s), []).
Proof.
  induction s as [|c s IH]; intros n l a v; cbn [escape unnul].
  - by rewrite sapp_nil_r.
  - erewrite read_app; [|apply read_escape_char_value|apply IH]. by rewrite sapp_assoc.
Qed.

Lemma hex_not_nul n : n < 16 → Ascii.eqb (hex_digit n) "000" = false.
Proof. intros H. do 16 (destruct n as [|n]; [done|]). lia. Qed.

Lemma percent_char c d : d ∈ list_ascii_of_string (percent c) → Ascii.eqb d "000" = false ∧ (d = "%"%char ∨ is_hex d = true).
Proof.
  intros H. unfold percent in H. cbn [list_ascii_of_string] in H. rewrite !elem_of_cons, elem_of_nil in H.
  assert (∀ n, n < 16 → is_hex (hex_digit n) = true) as X.
  { intros n Hn. do 16 (destruct n as [|n]; [done|]). lia. }
  pose proof (nat_ascii_bounded c) as B. unfold code in H.
  assert (nat_of_ascii c / 16 < 16) as B1 by (apply Nat.div_lt_upper_bound; lia).
  assert (nat_of_ascii c mod 16 < 16) as B2 by (apply Nat.mod_upper_bound; lia).
  destruct H as [-> |[-> |[-> |[]]]]; (split; [|auto]); try done; by apply hex_not_nul.
Qed.

Lemma unnul_app s t : unnul (s +:+ t) = unnul s +:+ unnul t.
Proof. induction s as [|c s IH]; [done|]. cbn [append unnul]. by rewrite IH, sapp_assoc. Qed.
Lemma unnul_id s : sforall (λ c, negb (Ascii.eqb c "000")) s = true → unnul s = s.
Proof.
  induction s as [|c s IH]; [done|]. cbn [sforall unnul]. intros [H1%negb_true_iff H2]%andb_true_iff.
  rewrite H1, IH by done. done.
Qed.
Lemma unnul_normalize s : unnul (url_normalize s) = url_normalize s.
Proof.
  induction s as [|c s IH]; [done|]. cbn [url_normalize].
  destruct (url_keep c) eqn:K.
  - cbn [unnul]. rewrite IH. by destruct (Ascii.eqb_spec c "000") as [->|].
  - destruct (Ascii.eqb c "%" && _) eqn:P.
    + apply andb_true_iff in P as [P _]. cbn [unnul]. rewrite IH.
      destruct (Ascii.eqb_spec c "000") as [->|]; done.
    + rewrite unnul_app, IH. f_equal. apply unnul_id.
      assert (∀ d, d ∈ list_ascii_of_string (percent c) → Ascii.eqb d "000" = false) as X by (intros d Hd; exact (proj1 (percent_char _ _ Hd))).
      revert X. generalize (percent c). clear. intros s. induction s as [|d s IH]; [done|]. intros X.
      cbn [sforall]. rewrite (X d) by (cbn [list_ascii_of_string]; left). simpl. apply IH. intros e He. apply X.
      cbn [list_ascii_of_string]. by right.
Qed.

(** A scheme that survives was there before: neither the percent sign nor
    anything encoded is part of a scheme. *)
Lemma normalize_scheme p : ∀ s rest, url_normalize s = p +:+ String ":" rest → sforall scheme_char p = true →
  ∃ rest', s = p +:+ String ":" rest'.
Proof.
  induction p as [|c p IH]; intros s rest E Hp.
  - destruct s as [|d s]; [done|]. cbn [url_normalize] in E. destruct (url_keep d).
    + injection E as -> _. by exists s.
    + destruct (Ascii.eqb d "%" && _) eqn:P.
      * injection E as -> _. done.
      * done.
  - cbn [sforall] in Hp. apply andb_true_iff in Hp as [Hc Hp].
    destruct s as [|d s]; [done|]. cbn [url_normalize append] in E. destruct (url_keep d).
    + injection E as -> E. destruct (IH _ _ E Hp) as (r & ->). by exists r.
    + destruct (Ascii.eqb d "%" && _) eqn:P.
      * injection E as -> _. apply andb_true_iff in P as [P _]. by apply Ascii.eqb_eq in P as ->.
      * injection E as <- _. done.
Qed.

Lemma before_colon_scheme p : ∀ rest, sforall scheme_char p = true → before_colon (p +:+ String ":" rest) = Some p.
Proof.
  induction p as [|c p IH]; intros rest; [done|]. cbn [sforall append before_colon]. intros [H1 H2]%andb_true_iff.
  rewrite IH by done. by destruct (Ascii.eqb_spec c ":") as [->|].
Qed.

Lemma harmless_url u : harmless (url_normalize (url_filter u)).
Proof.
  intros p (rest & E & Hp & Hne). destruct (normalize_scheme _ _ _ E Hp) as (r & E').
  unfold url_filter in E'. destruct (is_safe_url u) eqn:Hs.
  - unfold is_safe_url in Hs. rewrite E', (before_colon_scheme _ _ Hp) in Hs.
    assert (sforall (λ c, negb (Ascii.eqb c "/")) p = true) as X.
    { clear -Hp. induction p as [|c p IH]; [done|]. cbn [sforall] in *. apply andb_true_iff in Hp as [H1 H2].
      rewrite IH by done. by destruct (Ascii.eqb_spec c "/") as [->|]. }
    rewrite X in Hs. cbn [negb orb] in Hs. unfold safe_protocol in Hs.
    rewrite !orb_true_iff, !String.eqb_eq in Hs. destruct Hs as [[[-> | ->]| ->]|Hs]; [auto..|].
    exfalso. revert Hs Hp. clear.
    do 4 (destruct p as [|? p]; [done|]). cbn [smap append sforall]. intros H. injection H as _ _ _ _ H.
    rewrite !andb_true_iff. intros (_ & _ & _ & _ & Hp).
    destruct p as [|c p]; [done|]. cbn [smap sforall] in *. injection H as H _. apply andb_true_iff in Hp as [Hc _].
    revert H Hc. by chars c.
  - destruct p as [|c p]; [done|]. cbn [append] in E'. injection E' as <- _. done.
Qed.

Lemma goes_href u : goes [] ["a"] ("<a href=""" +:+ url_attr u +:+ """>").
Proof.
  eexists. split_and!.
  - eapply read_app; [reflexivity|]. eapply read_app; [apply read_escape_value|reflexivity].
  - intros st. reflexivity.
  - constructor; [|constructor]. simpl. split; [apply elem_of_cons; by left|].
    constructor; [|constructor]. right. right. left. split; [by left|].
    idtac.
    rewrite unnul_normalize. apply harmless_url.
Qed.
Lemma goes_id v : goes [] ["a"] ("<a id=""" +:+ escape v +:+ """>").
Proof.
  eexists. split_and!.
  - eapply read_app; [reflexivity|]. eapply read_app; [apply read_escape_value|reflexivity].
  - intros st. reflexivity.
  - constructor; [|constructor]. simpl. split; [apply elem_of_cons; by left|].
    constructor; [|constructor]. by left.
Qed.
Lemma good_img u d : good ("<img src=""" +:+ url_attr u +:+ """ alt=""" +:+ escape d +:+ """ />").
Proof.
  eexists. split_and!.
  - eapply read_app; [reflexivity|]. eapply read_app; [apply read_escape_value|].
    eapply read_app; [reflexivity|]. eapply read_app; [apply read_escape_value|reflexivity].
  - intros st. reflexivity.
  - constructor; [|constructor]. simpl. split; [by left|].
    constructor; [|constructor; [|constructor]].
    + right. right. left. split; [by right|]. rewrite unnul_normalize. apply harmless_url.
    + right. by left.
Qed.

(** ** Stripping *)

Lemma strip_clean c : StripP (λ c c', clean c = true → clean c' = true) c.
Proof.
  assert (∀ l l', Forall (StripP (λ c c', clean c = true → clean c' = true)) l → strip_list l = Some l' →
    forallb clean l = true → forallb clean l' = true) as L.
  { intros l l' IH E H. pose proof (strip_list_Forall2 _ _ _ IH E) as F.
    assert (forallb clean (keep l) = true) as K.
    { rewrite forallb_forall in H |- *. intros x Hx. apply H. unfold keep in Hx. by apply filter_In in Hx as [Hx _]. }
    clear -F K. induction F as [|x y k k' Hx F IH]; [done|]. simpl in *. apply andb_true_iff in K as [K1 K2].
    by rewrite Hx, IH. }
  induction c as [s|l IH|l IH|l IH|sec t rc o l IH|c t IH|s|s|st b c ps IH IHps|t l ti x IHt IHx|p d|l o IH|rows IH|defs IH|b t|c IH]
    using content_ind'; intros c' E; revert E; strip_rw; try (intros [= <-]; done).
  1-3,8: intros E; apply fmap_Some in E as (l' & El & ->); simpl; by apply L.
  - destruct rc as [rc|]; simpl; [|done]. destruct (strip_aux rc) eqn:E; simpl; [|done].
    intros [= <-]. simpl. by apply IH.
  - intros E. apply fmap_Some in E as (x & Ex & ->). simpl. by apply IH.
  - destruct (strip_aux c) eqn:E; simpl; [|done]. destruct (mapM _ _) as [ps'|] eqn:Eps; simpl; [|done].
    intros [= <-]. simpl. intros [H1 H2]%andb_true_iff. by rewrite H1, (IH _ E).
  - destruct ti as [a|]; simpl; [|done]. destruct (strip_aux a) eqn:Ea; simpl; [|done].
    destruct x as [y|]; simpl; [|done]. destruct (strip_aux y) eqn:Ey; simpl; [|done].
    intros [= <-]. simpl. intros [H1 H2]%andb_true_iff. by rewrite (IHt _ Ea), (IHx _ Ey).
  - intros E. apply fmap_Some in E as (rs & Er & ->). simpl. apply mapM_Some_1 in Er.
    induction Er as [|r r' rs rs' Hr _ IHr]; simpl; [done|]. inversion IH; subst.
    intros [H1' H2']%andb_true_iff. rewrite IHr by done. rewrite andb_true_r. by eapply L.
  - intros E. apply fmap_Some in E as (ds & Ed & ->). simpl. apply mapM_Some_1 in Ed.
    induction Ed as [|r r' rs rs' Hr _ IHr]; simpl; [done|].
    inversion IH as [|? ? [H1 H2] H3]; subst. unfold strip_def in Hr. destruct r as [s d]. simpl in *.
    destruct (strip_aux s) eqn:E1; simpl in Hr; [|done].
    destruct (strip_aux d) eqn:E2; simpl in Hr; [|done]. injection Hr as <-.
    intros [[H1' H2']%andb_true_iff H3']%andb_true_iff. by rewrite (H1 _ E1), (H2 _ E2), IHr.
  - exact (IH c').
Qed.

(** ** Tags found are tags of sections *)

Lemma filter_tags_from h m n : ∀ x l, gofix (filter_tags_F h m) n x = Some l →
  ∀ t, t ∈ l → ∃ i s, h !! i = Some s ∧ t ∈ s_tags s.
Proof.
  induction n as [|n IH]; intros [[up ex] i] l E; [done|]. cbn [gofix filter_tags_F] in E.
  destruct (h !! i) as [s|] eqn:Hi; cbn [mbind option_bind] in E; [|done].
  assert (∀ t, t ∈ List.filter (λ t : tag, m (t_name t)) (s_tags s) → ∃ i s, h !! i = Some s ∧ t ∈ s_tags s) as Hown.
  { intros t Ht. apply elem_of_list_In, filter_In in Ht as [Ht _]. exists i, s. split; [done|by apply elem_of_list_In]. }
  match type of E with (?f (s_children s) ≫= _) = _ => set (loop := f) in E end.
  assert (∀ cs r, loop cs = Some r → ∀ t, t ∈ r → ∃ i s, h !! i = Some s ∧ t ∈ s_tags s) as Hloop.
  { intros cs. induction cs as [|c cs IHc]; intros r Er t Ht; simpl in Er; [injection Er as <-; by apply elem_of_nil in Ht|].
    destruct (match ex with Some e => Nat.eqb c e | None => false end); [by eapply IHc|].
    destruct (gofix _ n (false, None, c)) as [a|] eqn:Ea; cbn [mbind option_bind] in Er; [|done].
    fold loop in Er. destruct (loop cs) as [b|] eqn:Eb; cbn [mbind option_bind] in Er; [|done]. injection Er as <-.
    apply elem_of_app in Ht as [Ht|Ht]; [by eapply IH|by eapply IHc]. }
  destruct (loop (s_children s)) as [subs|] eqn:Es; cbn [mbind option_bind] in E; [|done].
  intros t Ht.
  assert (t ∈ List.filter (λ t : tag, m (t_name t)) (s_tags s) ++ subs ∨
          ∃ p ups, gofix (filter_tags_F h m) n (true, Some i, p) = Some ups ∧ t ∈ ups) as [H|(p & ups & E' & H)].
  { destruct up; [|injection E as <-; by left]. destruct (s_parent s) as [p|]; [|injection E as <-; by left].
    destruct (gofix _ n (true, Some i, p)) as [ups|] eqn:Eu; cbn [mbind option_bind] in E; [|done]. injection E as <-.
    rewrite (assoc_L (++)) in Ht. apply elem_of_app in Ht as [Ht|Ht]; [by left|right; eauto]. }
  - apply elem_of_app in H as [H|H]; [by apply Hown|by eapply Hloop].
  - by eapply IH.
Qed.

Lemma ref_tag_from similar broken h sec name opt l t : ref_tag similar broken h sec name opt l = Ok (Some t) →
  t = broken_tag sec name l ∨ ∃ i s, h !! i = Some s ∧ t ∈ s_tags s.
Proof.
  unfold ref_tag, resolve, find_tag, filter_tags.
  destruct (gofix _ _ _) as [tags|] eqn:E; [|done].
  pose proof (filter_tags_from _ _ _ _ _ E) as H.
  destruct tags as [|x [|y tags]].
  - destruct opt; [done|]. destruct (similar_tags _ _ _ _); [|done]. destruct (file_path _ _); [|done].
    destruct broken; [|done]. intros [= <-]. by left.
  - intros [= <-]. right. apply H. by left.
  - destruct (mapM _ _); [|done]. destruct (file_path _ _); [|done].
    destruct broken; [|done]. intros [= <-]. by left.
Qed.

Lemma ref_display_tag similar broken h sec name rc opt l t : ref_tag similar broken h sec name opt l = Ok (Some t) →
  match ref_display similar broken h sec name rc opt l with Ok d => d | _ => None end =
  match rc with Some d => Some d | None => t_title t end.
Proof. intros E. unfold ref_display. rewrite E. by destruct rc. Qed.

Lemma omapM_Ok {E A B} (f : A → outcome E B) l : ∀ l', omapM f l = Ok l' → Forall2 (λ x y, f x = Ok y) l l'.
Proof.
  induction l as [|x l IH]; intros l' H; [injection H as <-; constructor|].
  change (omapM f (x :: l)) with (obind (λ y, obind (λ ys, Ok (y :: ys)) (omapM f l)) (f x)) in H.
  destruct (f x) eqn:Ex; cbn [obind] in H; try done.
  destruct (omapM f l) eqn:El; cbn [obind] in H; try done.
  injection H as <-. constructor; [done|]. by apply IH.
Qed.

(** ** Templates *)

Definition lit_end (a : list string) (s : string) : option (list string) :=
  match read SText s with
  | Some (SText, ts) => if forallb safe_tokenb ts then balance_lit a ts else None
  | _ => None
  end.

Ltac lits :=
  match goal with
  | |- goes ?a ?b (?s +:+ ?t) =>
    let r := eval vm_compute in (lit_end a s) in
    match r with Some ?m => apply (goes_app a m b s t); [apply lit; vm_compute; reflexivity|] end
  | |- goes ?a ?b ?s => apply lit; vm_compute; reflexivity
  end.
Ltac sub := match goal with |- goes ?a ?b (?s +:+ ?t) => apply (goes_app a a b s t); [apply good_under|] end.

Lemma good_app s t : good s → good t → good (s +:+ t).
Proof. apply goes_app. Qed.
Lemma good_concat ss : Forall good ss → good (sconcat ss).
Proof. induction 1; cbn [sconcat]; [apply goes_nil|by apply good_app]. Qed.
Lemma good_map {A} (f : A → string) l : (∀ x, x ∈ l → good (f x)) → good (sconcat (map f l)).
Proof. intros H. apply good_concat, Forall_forall. intros s (x & -> & Hx)%elem_of_list_fmap. by apply H. Qed.
Lemma good_join sep ss : good sep → Forall good ss → good (sjoin sep ss).
Proof.
  intros Hsep. induction 1 as [|s ss Hs F IH]; [apply goes_nil|].
  destruct ss as [|s' ss]; [done|]. rewrite sjoin_cons. by repeat apply good_app.
Qed.

Lemma good_href u s : good s → good ("<a href=""" +:+ url_attr u +:+ """>" +:+ s +:+ "</a>").
Proof.
  intros H. pose proof (goes_href u) as G.
  assert ("<a href=""" +:+ url_attr u +:+ """>" +:+ s +:+ "</a>" = ("<a href=""" +:+ url_attr u +:+ """>") +:+ (s +:+ "</a>")) as ->
    by by rewrite !sapp_assoc.
  eapply goes_app; [exact G|]. sub; [done|]. lits.
Qed.
Lemma good_id v : good ("<a id=""" +:+ escape v +:+ """></a>").
Proof.
  assert ("<a id=""" +:+ escape v +:+ """></a>" = ("<a id=""" +:+ escape v +:+ """>") +:+ "</a>") as -> by by rewrite !sapp_assoc.
  eapply goes_app; [apply goes_id|]. lits.
Qed.

Lemma good_styled st flow pre post s : styled_wrap st flow = Some (pre, post) → good s → good (pre +:+ s +:+ post).
Proof.
  unfold styled_wrap. intros E H.
  repeat match type of E with (if ?b then _ else _) = _ => destruct b; [injection E as <- <-; lits; sub; [done|]; lits|] end.
  destruct (String.eqb st "verbatim"); [|done]. destruct flow; injection E as <- <-; lits; sub; try done; lits.
Qed.

Lemma good_list o ss : Forall good ss → good (list_html o ss).
Proof.
  intros F. assert (good (sconcat (map (λ s, nls +:+ "  <li>" +:+ s +:+ "</li>" +:+ nls) ss))) as G.
  { apply good_map. intros s Hs. rewrite Forall_forall in F. lits. lits. sub; [by apply F|]. lits. lits. }
  unfold list_html. destruct o.
  - change (good (("<ol>" +:+ nls) +:+ (sconcat (map (λ s, nls +:+ "  <li>" +:+ s +:+ "</li>" +:+ nls) ss) +:+ (nls +:+ "</ol>")))).
    lits. sub; [done|]. repeat lits.
  - change (good (("<ul>" +:+ nls) +:+ (sconcat (map (λ s, nls +:+ "  <li>" +:+ s +:+ "</li>" +:+ nls) ss) +:+ (nls +:+ "</ul>")))).
    lits. sub; [done|]. repeat lits.
Qed.

Lemma good_table rows : Forall (Forall good) rows → good (table_html rows).
Proof.
  intros F. unfold table_html. lits. lits. lits. sub; [|lits; lits].
  apply good_map. intros row Hr. rewrite Forall_forall in F. specialize (F row Hr). rewrite Forall_forall in F.
  lits. lits. lits. lits. sub.
  - apply good_map. intros s Hs. lits. lits. sub; [by apply F|]. lits. lits. lits.
  - lits. lits. lits. lits.
Qed.

Lemma good_defs defs : Forall (λ p, good (fst p) ∧ good (snd p)) defs → good (defs_html defs).
Proof.
  intros F. unfold defs_html. lits. lits. lits. sub; [|lits; lits].
  apply good_map. intros [s d] Hr. rewrite Forall_forall in F. destruct (F _ Hr) as [F1 F2].
  lits. lits. sub; [done|]. lits. lits. lits. sub; [done|]. lits. lits. lits.
Qed.

Lemma good_page title body : good body → good (page_html title body).
Proof.
  intros H. unfold page_html. repeat lits. sub; [apply good_escape|]. repeat lits. sub; [done|]. repeat lits.
Qed.

Lemma good_section d name number title body children : 1 ≤ d ≤ 6 → good title → good body →
  (∀ cs, children = Some cs → Forall good cs) → good (section_html (dec d) name number title body children).
Proof.
  intros Hd Ht Hb Hc. unfold section_html.
  set (anchor := "<a id=""" +:+ escape name +:+ """></a>").
  set (num := match number with Some n => _ | None => _ end). set (kids := match children with Some cs => _ | None => _ end).
  assert (good num) as Hn.
  { unfold num. destruct number as [n|]; [|apply goes_nil]. lits. sub; [apply good_escape|]. lits. }
  assert (good kids) as Hk.
  { unfold kids. destruct children as [cs|]; [|apply goes_nil]. specialize (Hc cs eq_refl). rewrite Forall_forall in Hc.
    repeat lits. sub; [|repeat lits]. apply good_map. intros s Hs. repeat lits. sub; [by apply Hc|]. repeat lits. }
  assert (∀ x, "<h" +:+ dec d +:+ " class=""section-header""><a id=""" +:+ escape name +:+ """></a>" +:+ x =
    ("<h" +:+ dec d +:+ " class=""section-header"">") +:+ (anchor +:+ x)) as E.
  { intros x. unfold anchor. rewrite !sapp_assoc. reflexivity. }
  rewrite E.
  assert (∀ x, "</h" +:+ dec d +:+ ">" +:+ x = ("</h" +:+ dec d +:+ ">") +:+ x) as E2 by (intros x; by rewrite !sapp_assoc).
  rewrite E2.
  do 6 (destruct d as [|d]; [lia|destruct (decide (d = 0)) as [->|];
    [lits; sub; [apply good_id|]; sub; [done|]; sub; [done|]; repeat lits; sub; [done|]; repeat lits; done|]]). lia.
Qed.

Lemma good_toc es : Forall (λ e, match e with (_, _, t, sub) => good t ∧ good sub end) es → good (toc_html es).
Proof.
  intros F. unfold toc_html. repeat lits. sub; [|repeat lits].
  apply good_map. intros [[[u n] t] sb] Hr. rewrite Forall_forall in F. destruct (F _ Hr) as [F1 F2].
  repeat lits. sub; [|lits; lits; lits; sub; [done|]; repeat lits].
  assert ("<a href=""" +:+ url_attr u +:+ """>" +:+ escape n +:+ " " +:+ t +:+ "</a>" =
    "<a href=""" +:+ url_attr u +:+ """>" +:+ (escape n +:+ " " +:+ t) +:+ "</a>") as -> by by rewrite !sapp_assoc.
  apply good_href. sub; [apply good_escape|]. lits. done.
Qed.

