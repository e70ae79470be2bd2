(** C23, C45, C53, C54: names, tags, maps. *)
From Coq Require Import Ascii String Lia.
From stdpp Require Import base tactics strings list.
From Verif Require Import GoBase Ast Content Section Registry Render RenderSpec StrProofs WriterProofs.

Open Scope string_scope.
Open Scope list_scope.

(** ** Bytes: facts checked on all 256 of them *)

Definition all_ascii : list ascii := map ascii_of_nat (seq 0 256).

Lemma all_ascii_spec (p : ascii → bool) : forallb p all_ascii = true → ∀ c, p c = true.
Proof.
  intros H c. rewrite forallb_forall in H. apply H. unfold all_ascii. apply in_map_iff.
  exists (nat_of_ascii c). split; [apply ascii_nat_embedding|].
  apply in_seq. pose proof (nat_ascii_bounded c). lia.
Qed.

Ltac ascii_check c :=
  revert c; match goal with |- ∀ c, @?p c = true => apply (all_ascii_spec p) end; vm_compute; reflexivity.

(** ** C23 *)

(** Lower-case letters, digits, underscore, hyphen. *)
Definition safe_char (c : ascii) : bool :=
  is_lower c || is_digit c || Ascii.eqb c "_" || Ascii.eqb c "-".
Definition alnum (c : ascii) : bool := is_lower c || is_upper c || is_digit c.

Lemma tag_char_lower c : implb (tag_char c) (safe_char (lower c)) = true.
Proof. ascii_check c. Qed.

Lemma slug_safe text : sforall safe_char (slug text) = true.
Proof.
  unfold slug. rewrite sforall_smap.
  eapply sforall_impl; [|apply sforall_sfilter]. intros c Hc.
  pose proof (tag_char_lower c) as H. rewrite Hc in H. done.
Qed.

Lemma alnum_lower c : Bool.eqb (alnum (lower c)) (alnum c) = true.
Proof. ascii_check c. Qed.
Lemma alnum_tag c : implb (alnum c) (tag_char c) = true.
Proof. ascii_check c. Qed.
Lemma ws_not_alnum c : implb (is_ws c) (negb (alnum c)) = true.
Proof. ascii_check c. Qed.

Lemma sfilter_sub p q s : (∀ c, p c = true → q c = true) → sfilter p (sfilter q s) = sfilter p s.
Proof.
  intros H. induction s as [|c s IH]; simpl; [done|].
  destruct (q c) eqn:Eq; simpl; [by rewrite IH|].
  destruct (p c) eqn:Ep; [|done]. rewrite (H _ Ep) in Eq. done.
Qed.

Lemma alnum_squeeze b s : sfilter alnum (squeeze_ws b s) = sfilter alnum s.
Proof.
  revert b. induction s as [|c s IH]; intros b; simpl; [done|].
  destruct (is_ws c) eqn:E.
  - pose proof (ws_not_alnum c) as H. rewrite E in H. simpl in H. apply negb_true_iff in H. rewrite H.
    destruct b; simpl; by rewrite IH.
  - simpl. by rewrite IH.
Qed.

Lemma slug_keeps_alnum text :
  sfilter alnum (slug text) = smap lower (sfilter alnum (replace_all " & " " and " text)).
Proof.
  unfold slug. rewrite <- (alnum_squeeze false (replace_all _ _ _)).
  rewrite <- (sfilter_sub alnum tag_char (squeeze_ws _ _)).
  - symmetry. apply smap_sfilter_comm. intros c. apply Bool.eqb_prop, alnum_lower.
  - intros c Hc. pose proof (alnum_tag c) as H. by rewrite Hc in H.
Qed.

Lemma replace_go_none old new s : (∀ p r, s = p +:+ r → has_prefix old r = false) →
  replace_go old new 0 s = s.
Proof.
  induction s as [|c s IH]; intros H; simpl; [done|].
  pose proof (H "" (String c s) eq_refl) as H0. simpl in H0. rewrite H0. f_equal.
  apply IH. intros p r ->. by apply (H (String c p) r).
Qed.

Lemma replace_all_amp text : no_char "&" text = true → replace_all " & " " and " text = text.
Proof.
  intros H. apply replace_go_none. intros p r ->.
  destruct (has_prefix " & " r) eqn:E; [|done]. apply has_prefix_spec in E as [r' ->].
  unfold no_char in H. rewrite !sforall_app in H. simpl in H. rewrite andb_false_r in H. done.
Qed.

Lemma safe_no_slash s : sforall safe_char s = true → no_char "/" s = true.
Proof.
  intros H. eapply sforall_impl; [|exact H]. intros c Hc. apply negb_true_iff.
  destruct (Ascii.eqb_spec c "/") as [->|]; [done|done].
Qed.

Lemma default_page_file h ext i s text : h !! i = Some s → t_name (s_primary s) = slug text →
  no_char "/" ext = true → no_char "/" (file_of h ext i) = true.
Proof.
  intros Hs Ht He. unfold file_of. rewrite Hs, Ht.
  pose proof (safe_no_slash (slug text) (slug_safe text)) as Hsl.
  unfold no_char in *. rewrite !sforall_app, He, Hsl. done.
Qed.

(** ** C45, C54 *)

Definition last_value {V} (k : string) (hist : list (string * V)) (v : V) : Prop :=
  ∃ l1 l2, hist = l1 ++ (k, v) :: l2 ∧ ∀ p, p ∈ l2 → fst p ≠ k.

Lemma fold_assoc {V} (hist : list (string * V)) m k :
  let m' := fold_left (λ m p, assoc_set (fst p) (snd p) m) hist m in
  (∃ v, last_value k hist v ∧ assoc_get k m' = Some v) ∨
  ((∀ p, p ∈ hist → fst p ≠ k) ∧ assoc_get k m' = assoc_get k m).
Proof.
  revert m. induction hist as [|[k0 v0] hist IH]; intros m; simpl.
  - right. split; [|done]. intros p Hp. inversion Hp.
  - destruct (IH (assoc_set k0 v0 m)) as [(v & (l1 & l2 & -> & Hl) & E)|[Hn E]].
    + left. exists v. split; [|done]. exists ((k0, v0) :: l1), l2. done.
    + rewrite assoc_get_set in E. destruct (String.eqb_spec k0 k) as [->|Hne].
      * left. exists v0. split; [|done]. exists [], hist. done.
      * right. split; [|done]. intros p Hp. apply elem_of_cons in Hp as [->|Hp]; [done|by apply Hn].
Qed.

Definition set_partials_all (hist : list (string * option content)) (s : section) : section :=
  fold_left (λ s p, set_partial (fst p) (snd p) s) hist s.

Lemma set_partials_all_partials hist s :
  s_partials (set_partials_all hist s) =
  fold_left (λ m p, assoc_set (fst p) (snd p) m) hist (s_partials s).
Proof. revert s. induction hist as [|p hist IH]; intros s; simpl; [done|]. by rewrite IH. Qed.

Lemma partials_map hist s k :
  (∃ v, last_value k hist v ∧ partial k (set_partials_all hist s) = v) ∨
  ((∀ p, p ∈ hist → fst p ≠ k) ∧ partial k (set_partials_all hist s) = partial k s).
Proof.
  unfold partial. rewrite set_partials_all_partials.
  destruct (fold_assoc hist (s_partials s) k) as [(v & Hv & ->)|[Hn ->]]; [left; eauto|right; done].
Qed.

Lemma registry_map hist k :
  (∃ f, last_value k hist f ∧ lookup_plugin k (register_all hist) = Some f) ∨
  ((∀ p, p ∈ hist → fst p ≠ k) ∧ lookup_plugin k (register_all hist) = None).
Proof.
  destruct (fold_assoc hist (@nil (string * factory)) k) as [(v & Hv & E)|[Hn E]].
  - left. exists v. split; [done|]. exact E.
  - right. split; [done|]. exact E.
Qed.

(** ** C53 *)

Definition lower_word (w : string) : Prop := w ≠ "" ∧ sforall is_lower w = true.

(** What the parser accepts as a function name. *)
Definition fn_char (c : ascii) : bool := is_lower c || Ascii.eqb c "-".

(** The non-empty words of a name. *)
Definition words (fn : string) : list string :=
  List.filter (λ w, negb (String.eqb w "")) (ssplit "-" fn).

Lemma lower_id c : implb (is_lower c) (Ascii.eqb (lower c) c) = true.
Proof. ascii_check c. Qed.
Lemma upper_lower_back c : implb (is_lower c) (Ascii.eqb (lower (upper c)) c) = true.
Proof. ascii_check c. Qed.
Lemma upper_not_lower c : implb (is_lower c) (negb (is_lower (upper c))) = true.
Proof. ascii_check c. Qed.

Lemma smap_lower_id s : sforall is_lower s = true → smap lower s = s.
Proof.
  induction s as [|c s IH]; simpl; [done|]. rewrite andb_true_iff. intros [Hc Hs].
  rewrite IH by done. f_equal. pose proof (lower_id c) as H. rewrite Hc in H. by apply Ascii.eqb_eq.
Qed.

Lemma title_case_word c s : sforall is_lower (String c s) = true → title_case (String c s) = String (upper c) s.
Proof. simpl. rewrite andb_true_iff. intros [_ H]. by rewrite smap_lower_id. Qed.

(** A run of lower-case letters followed by something not starting with one. *)
Definition starts_lower (s : string) : bool := match s with "" => false | String c _ => is_lower c end.

Lemma lower_run_unique a b x y : sforall is_lower a = true → sforall is_lower b = true →
  starts_lower x = false → starts_lower y = false → a +:+ x = b +:+ y → a = b ∧ x = y.
Proof.
  revert b. induction a as [|c a IH]; intros [|d b] Ha Hb Hx Hy E; simpl in *.
  - done.
  - subst x. apply andb_true_iff in Hb as [Hd _]. simpl in Hx. congruence.
  - subst y. apply andb_true_iff in Ha as [Hd _]. simpl in Hy. congruence.
  - injection E as -> E. apply andb_true_iff in Ha as [_ Ha]. apply andb_true_iff in Hb as [_ Hb].
    destruct (IH b Ha Hb Hx Hy E) as [-> ->]. done.
Qed.

Local Arguments title_case : simpl never.

Lemma words_start l : Forall lower_word l → starts_lower (sconcat (map title_case l)) = false.
Proof.
  intros [|w l' [Hne Hw] _]; [done|]. destruct w as [|c w]; [done|]. simpl map.
  rewrite title_case_word by done. simpl in *. apply andb_true_iff in Hw as [Hc _].
  pose proof (upper_not_lower c) as H. rewrite Hc in H. by apply negb_true_iff.
Qed.

Lemma title_concat_inj l1 l2 : Forall lower_word l1 → Forall lower_word l2 →
  sconcat (map title_case l1) = sconcat (map title_case l2) → l1 = l2.
Proof.
  intros H1. revert l2. induction H1 as [|w1 l1 [Hne1 Hw1] H1 IH]; intros l2 H2 E.
  - inversion H2 as [|w2 l2' [Hne2 Hw2] H2']; subst; [done|].
    destruct w2 as [|d w2]; [done|]. cbn [map sconcat] in E. by rewrite title_case_word in E.
  - inversion H2 as [|w2 l2' [Hne2 Hw2] H2']; subst.
    + destruct w1 as [|c w1]; [done|]. cbn [map sconcat] in E. by rewrite title_case_word in E.
    + destruct w1 as [|c w1]; [done|]. destruct w2 as [|d w2]; [done|]. cbn [map sconcat] in E.
      rewrite !title_case_word in E by done. simpl in E. injection E as Ec E.
      simpl in Hw1, Hw2. apply andb_true_iff in Hw1 as [Hc Hw1]. apply andb_true_iff in Hw2 as [Hd Hw2].
      destruct (lower_run_unique _ _ _ _ Hw1 Hw2 (words_start _ H1) (words_start _ H2') E) as [-> E'].
      rewrite (IH _ H2' E'). f_equal. f_equal.
      pose proof (upper_lower_back c) as Bc. rewrite Hc in Bc. apply Ascii.eqb_eq in Bc.
      pose proof (upper_lower_back d) as Bd. rewrite Hd in Bd. apply Ascii.eqb_eq in Bd. congruence.
Qed.

Lemma title_concat_words l : sconcat (map title_case l) =
  sconcat (map title_case (List.filter (λ w, negb (String.eqb w "")) l)).
Proof.
  induction l as [|w l IH]; simpl; [done|]. destruct (String.eqb_spec w "") as [->|]; simpl; by rewrite IH.
Qed.

Lemma method_name_words fn : method_name fn = sconcat (map title_case (words fn)).
Proof. unfold method_name, words. apply title_concat_words. Qed.

Lemma ssplit_sub (p : ascii → bool) sep s : sforall p s = true → Forall (λ w, sforall p w = true) (ssplit sep s).
Proof.
  induction s as [|c s IH]; simpl; [by repeat constructor|]. rewrite andb_true_iff. intros [Hc Hs].
  specialize (IH Hs). destruct (Ascii.eqb c sep); [by constructor|].
  destruct (ssplit sep s) as [|w ws]; [constructor; [simpl; by rewrite Hc|constructor]|].
  inversion IH; subst. constructor; [|done]. simpl. by rewrite Hc.
Qed.

Lemma words_lower fn : sforall fn_char fn = true → Forall lower_word (words fn).
Proof.
  intros H. unfold words. apply Forall_forall. intros w Hw.
  apply elem_of_list_In, filter_In in Hw as [Hw Hne]. apply elem_of_list_In in Hw.
  split; [by apply negb_true_iff, String.eqb_neq in Hne|].
  pose proof (ssplit_sub _ "-" _ H) as H1. pose proof (ssplit_forall_no_char "-" fn) as H2.
  rewrite Forall_forall in H1, H2. specialize (H1 _ Hw). specialize (H2 _ Hw).
  clear -H1 H2. induction w as [|c w IH]; simpl in *; [done|].
  unfold no_char in H2. simpl in H2. apply andb_true_iff in H1 as [A1 A2]. apply andb_true_iff in H2 as [B1 B2].
  rewrite IH by done. rewrite andb_true_r. unfold fn_char in A1. apply orb_true_iff in A1 as [?|A1]; [done|].
  rewrite A1 in B1. done.
Qed.

Lemma method_name_inj f g : sforall fn_char f = true → sforall fn_char g = true →
  method_name f = method_name g ↔ words f = words g.
Proof.
  intros Hf Hg. rewrite !method_name_words. split; [|by intros ->].
  apply title_concat_inj; by apply words_lower.
Qed.

(** ** C23: words *)

(** White space, as in the regular expression [\s]. *)
Definition white (c : ascii) : Prop :=
  c = "009"%char ∨ c = "010"%char ∨ c = "012"%char ∨ c = "013"%char ∨ c = " "%char.
Fixpoint every (P : ascii → Prop) (s : string) : Prop :=
  match s with "" => True | String c r => P c ∧ every P r end.

(** A text: a first word, then gaps of white space, each followed by a word. Only
    the first and the last word may be empty. *)
Fixpoint gaps (l : list (string * string)) : string :=
  match l with [] => "" | (g, w) :: l => g +:+ w +:+ gaps l end.
Inductive spaced : list (string * string) → Prop :=
| spaced_nil : spaced []
| spaced_cons g w l : g ≠ "" → every white g → every (λ c, ¬ white c) w → (l ≠ [] → w ≠ "") → spaced l → spaced ((g, w) :: l).

(** A word in a tag: ASCII letters, in lower case, digits, "_" and "-". *)
Definition word_tag (w : string) : string := smap lower (sfilter tag_char w).

Lemma white_ws c : white c ↔ is_ws c = true.
Proof.
  split.
  - by intros [->|[->|[->|[->| ->]]]].
  - assert (∀ c, implb (is_ws c) (Ascii.eqb c "009" || Ascii.eqb c "010" || Ascii.eqb c "012" || Ascii.eqb c "013" || Ascii.eqb c " ") = true) as H
      by (clear c; intros c; ascii_check c).
    intros E. specialize (H c). rewrite E in H. simpl in H. rewrite !orb_true_iff, !Ascii.eqb_eq in H. unfold white. tauto.
Qed.
Lemma squeeze_white g s b : every white g → squeeze_ws b (g +:+ s) =
  if String.eqb g "" then squeeze_ws b s else (if b then "" else "-") +:+ squeeze_ws true s.
Proof.
  revert b. induction g as [|c g IH]; intros b Hg; [done|]. destruct Hg as [Hc Hg]. cbn [String.append squeeze_ws].
  apply white_ws in Hc. rewrite Hc, !IH by done. cbn [String.eqb]. destruct (String.eqb_spec g ""), b; done.
Qed.
Lemma squeeze_black w s b : every (λ c, ¬ white c) w → w ≠ "" → squeeze_ws b (w +:+ s) = w +:+ squeeze_ws false s.
Proof.
  revert b. induction w as [|c w IH]; intros b Hw Hne; [done|]. destruct Hw as [Hc Hw]. cbn [String.append squeeze_ws].
  destruct (is_ws c) eqn:E; [by apply white_ws in E|]. f_equal. destruct w as [|c' w]; [done|]. by apply IH.
Qed.
Lemma squeeze_gaps l : spaced l → squeeze_ws false (gaps l) = sconcat (map (λ p, "-" +:+ snd p) l).
Proof.
  induction 1 as [|g w l Hg Wg Ww Hl _ IH]; [done|]. cbn [gaps map sconcat snd].
  rewrite squeeze_white by done. destruct (String.eqb_spec g "") as [|_]; [done|]. cbn [String.append]. f_equal.
  destruct w as [|c w].
  - assert (l = []) as -> by (destruct l; [done|]; by destruct Hl). done.
  - rewrite squeeze_black by done. by rewrite IH.
Qed.
Lemma word_tags l : word_tag (sconcat (map (λ p, "-" +:+ snd p) l)) = sconcat (map (λ p : string * string, "-" +:+ word_tag (snd p)) l).
Proof.
  unfold word_tag. induction l as [|[g w] l IH]; [done|]. cbn [map sconcat snd].
  rewrite !sfilter_app, !smap_app, IH. by rewrite !sapp_assoc.
Qed.
Lemma slug_spaced w0 l : no_char "&" (w0 +:+ gaps l) = true → every (λ c, ¬ white c) w0 → spaced l →
  slug (w0 +:+ gaps l) = word_tag w0 +:+ sconcat (map (λ p, "-" +:+ word_tag (snd p)) l).
Proof.
  intros Ha Hw Hl. unfold slug. rewrite replace_all_amp by done. fold (word_tag (squeeze_ws false (w0 +:+ gaps l))).
  rewrite <- word_tags, <- squeeze_gaps by done. unfold word_tag. rewrite <- smap_app, <- sfilter_app. f_equal. f_equal.
  destruct w0 as [|c w0]; [done|]. by rewrite squeeze_black.
Qed.

(** Every text is of this form. *)
Lemma spaced_total s : ∃ w0 l, s = w0 +:+ gaps l ∧ every (λ c, ¬ white c) w0 ∧ spaced l.
Proof.
  induction s as [|c s (w0 & l & -> & Hw & Hl)]; [exists "", []; split_and!; try done; constructor|].
  destruct (is_ws c) eqn:E.
  - apply white_ws in E. destruct w0 as [|c' w0].
    + destruct Hl as [|g w l Hg Wg Ww Hl Sl].
      * exists "", [(String c "", "")]. split; [done|]. split; [done|]. constructor; try done. constructor.
      * exists "", ((String c g, w) :: l). split; [done|]. split; [done|]. by constructor.
    + exists "", ((String c "", String c' w0) :: l). split; [done|]. split; [done|]. by constructor.
  - exists (String c w0), l. split; [done|]. split; [|done]. split; [|done]. intros Hc. apply white_ws in Hc. congruence.
Qed.

Lemma replace_go_app old new a b : (∀ p r, a +:+ b = p +:+ r → String.length p < String.length a → has_prefix old r = false) →
  replace_go old new 0 (a +:+ b) = a +:+ replace_go old new 0 b.
Proof.
  induction a as [|c a IH]; intros H; [done|].
  pose proof (H "" (String c (a +:+ b)) eq_refl ltac:(simpl; lia)) as H0. cbn [String.append]. cbn [replace_go]. rewrite H0. f_equal.
  apply IH. intros p r E L. apply (H (String c p) r); [simpl; by f_equal|simpl; lia].
Qed.

Lemma slug_and a b : no_char "&" a = true → no_char "&" b = true → slug (a +:+ " & " +:+ b) = slug (a +:+ " and " +:+ b).
Proof.
  intros Ha Hb. unfold slug. f_equal. f_equal. f_equal. unfold replace_all.
  rewrite (replace_go_none _ _ (a +:+ " and " +:+ b)).
  - rewrite replace_go_app.
    + f_equal. assert (replace_go " & " " and " 0 (" & " +:+ b) = " and " +:+ replace_go " & " " and " 0 b) as -> by by destruct b.
      f_equal. apply replace_go_none. intros p r ->.
      destruct (has_prefix " & " r) eqn:E; [|done]. apply has_prefix_spec in E as [r' ->].
      unfold no_char in Hb. rewrite !sforall_app in Hb. simpl in Hb. rewrite andb_false_r in Hb. done.
    + intros p r E L. destruct (has_prefix " & " r) eqn:Er; [|done]. exfalso. apply has_prefix_spec in Er as [r' ->].
      revert p E L. induction a as [|c a IH]; intros p E L; [simpl in L; lia|]. destruct p as [|c' p].
      * simpl in E. injection E as -> E. destruct a as [|c a]; [done|]. simpl in E. injection E as -> E. done.
      * simpl in E. injection E as -> E. simpl in L. apply (IH ltac:(by apply andb_true_iff in Ha as [_ ?]) p); [done|lia].
  - intros p r E. destruct (has_prefix " & " r) eqn:Er; [|done]. apply has_prefix_spec in Er as [r' ->].
    assert (no_char "&" (a +:+ " and " +:+ b) = true) as H by (unfold no_char in *; rewrite !sforall_app, Ha, Hb; done).
    rewrite E in H. unfold no_char in H. rewrite !sforall_app in H. simpl in H. rewrite andb_false_r in H. done.
Qed.
