(** Links that html/template writes, followed. *)
From Coq Require Import Ascii String Lia.
From stdpp Require Import base tactics strings list.
From Verif Require Import GoBase StrProofs Ast Content Section Render Html HtmlSpec HtmlProofs UrlSpec.
Local Open Scope string_scope.
Local Open Scope list_scope.

Lemma unescape_percent c s : unescape (percent c +:+ s) = String c (unescape s).
Proof.
  assert (∀ n, n < 16 → hex_value (hex_digit n) = Some n) as X.
  { intros n Hn. do 16 (destruct n as [|n]; [reflexivity|]). lia. }
  pose proof (nat_ascii_bounded c) as B. unfold percent, code. cbn [append].
  assert (nat_of_ascii c / 16 < 16) as B1 by (apply Nat.div_lt_upper_bound; lia).
  assert (nat_of_ascii c mod 16 < 16) as B2 by (apply Nat.mod_upper_bound; lia).
  cbn [unescape]. rewrite (X _ B1), (X _ B2). change (Ascii.eqb "%" "%") with true. cbn iota.
  rewrite <- Nat.div_mod by lia. by rewrite ascii_nat_embedding.
Qed.
Lemma unescape_keep c s : Ascii.eqb c "%" = false → unescape (String c s) = String c (unescape s).
Proof. intros H. cbn [unescape]. by rewrite H. Qed.

Lemma plain_cons c s : plain_name (String c s) ↔
  existsb (Ascii.eqb c) ["#"; "?"; "%"; "/"; ":"; "000"]%char = false ∧ plain_name s.
Proof. unfold plain_name. cbn [sforall]. by rewrite andb_true_iff, negb_true_iff. Qed.
Lemma plain_app a b : plain_name (a +:+ b) ↔ plain_name a ∧ plain_name b.
Proof. unfold plain_name. by rewrite sforall_app, andb_true_iff. Qed.

Lemma normalize_plain_cons c s : existsb (Ascii.eqb c) ["#"; "?"; "%"; "/"; ":"; "000"]%char = false →
  url_normalize (String c s) = (if url_keep c then String c "" else percent c) +:+ url_normalize s.
Proof.
  intros H. cbn [url_normalize]. destruct (url_keep c); [done|].
  destruct (Ascii.eqb_spec c "%") as [->|]; [done|]. done.
Qed.

Lemma normalize_app a b : plain_name a → url_normalize (a +:+ b) = url_normalize a +:+ url_normalize b.
Proof.
  induction a as [|c a IH]; [done|]. intros [H1 H2]%plain_cons. cbn [append].
  rewrite !normalize_plain_cons by done. by rewrite IH, sapp_assoc.
Qed.

Lemma unescape_normalize a : plain_name a → unescape (url_normalize a) = a.
Proof.
  induction a as [|c a IH]; [done|]. intros [H1 H2]%plain_cons. rewrite normalize_plain_cons by done.
  destruct (url_keep c).
  - cbn [append]. rewrite unescape_keep; [by rewrite IH|]. cbn [existsb] in H1. destruct (Ascii.eqb c "%"); [|done].
    by rewrite !orb_true_r in H1.
  - by rewrite unescape_percent, IH.
Qed.

Definition pathc (c : ascii) : bool := negb (Ascii.eqb c "#" || Ascii.eqb c "/" || Ascii.eqb c "\" || Ascii.eqb c ":" || Ascii.eqb c "?").

Lemma normalize_path a : plain_name a → sforall pathc (url_normalize a) = true.
Proof.
  induction a as [|c a IH]; [done|]. intros [H1 H2]%plain_cons. rewrite normalize_plain_cons by done.
  rewrite sforall_app, IH, andb_true_r by done. revert H1. clear. by chars c.
Qed.

Lemma cut_none p : sforall pathc p = true → cut_fragment p = (p, None).
Proof.
  induction p as [|c p IH]; [done|]. cbn [sforall cut_fragment]. intros [H1 H2]%andb_true_iff. rewrite IH by done.
  destruct (Ascii.eqb_spec c "#") as [->|]; done.
Qed.
Lemma cut_some p f : sforall pathc p = true → cut_fragment (p +:+ String "#" f) = (p, Some f).
Proof.
  induction p as [|c p IH]; [done|]. cbn [sforall cut_fragment append]. intros [H1 H2]%andb_true_iff. rewrite IH by done.
  destruct (Ascii.eqb_spec c "#") as [->|]; done.
Qed.
Lemma path_ok p : sforall pathc p = true →
  sforall (λ c, negb (Ascii.eqb c "/" || Ascii.eqb c "\" || Ascii.eqb c ":" || Ascii.eqb c "?")) p = true.
Proof. apply sforall_impl. intros c. unfold pathc. rewrite !negb_true_iff, !orb_false_iff. tauto. Qed.

Lemma plain_safe a : plain_name a → before_colon a = None.
Proof.
  induction a as [|c a IH]; [done|]. intros [H1 H2]%plain_cons. cbn [before_colon]. rewrite IH by done.
  destruct (Ascii.eqb_spec c ":") as [->|]; done.
Qed.
Lemma before_colon_app a b : before_colon a = None → before_colon b = None → before_colon (a +:+ b) = None.
Proof.
  induction a as [|c a IH]; [done|]. cbn [append before_colon]. destruct (Ascii.eqb c ":"); [done|].
  destruct (before_colon a); [done|]. intros _ Hb. by rewrite IH.
Qed.

Lemma opens_file f : plain_name f → opens (url_normalize (url_filter f)) = Some (f, None).
Proof.
  intros H. unfold url_filter, is_safe_url. rewrite (plain_safe f H). unfold opens.
  pose proof (normalize_path f H) as P. rewrite (cut_none _ P), (path_ok _ P). simpl. by rewrite unescape_normalize.
Qed.
Lemma opens_fragment f a : plain_name f → plain_name a →
  opens (url_normalize (url_filter (f +:+ "#" +:+ a))) = Some (f, Some a).
Proof.
  intros Hf Ha. unfold url_filter, is_safe_url.
  assert (before_colon (f +:+ "#" +:+ a) = None) as ->.
  { apply before_colon_app; [by apply plain_safe|]. cbn [append before_colon]. change (Ascii.eqb "#" ":") with false. cbn [before_colon].
    by rewrite plain_safe. }
  rewrite normalize_app by done. change (url_normalize ("#" +:+ a)) with (String "#" (url_normalize a)).
  pose proof (normalize_path f Hf) as P. unfold opens. rewrite (cut_some _ _ P), (path_ok _ P). simpl.
  by rewrite !unescape_normalize.
Qed.
