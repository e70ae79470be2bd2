(** Reading back what [json_index] writes. *)
From Coq Require Import Ascii String NArith Decimal DecimalString DecimalNat DecimalFacts Sorted Lia.
From stdpp Require Import base tactics strings numbers list.
From Verif Require Import GoBase StrProofs ParseSpec Utf8 Encoding Section Render WriterProofs Json JsonSpec.
Local Open Scope string_scope.
Local Open Scope list_scope.

(** ** Texts *)

Definition high (a : ascii) : bool := (128 <=? byte a)%N.
Lemma read_text_high p r : sforall high p = true → read_text (p +:+ r) = prepend p (read_text r).
Proof.
  induction p as [|a p IH]; intros H.
  { rewrite sapp_nil_l. destruct (read_text r) as [[v q]|]; reflexivity. }
  change (high a && sforall high p = true) in H. apply andb_true_iff in H as [Ha H].
  rewrite sapp_cons. apply N.leb_le in Ha.
  assert (Ascii.eqb a """" = false) as E1 by (apply Ascii.eqb_neq; intros ->; vm_compute in Ha; lia).
  assert (Ascii.eqb a "\" = false) as E2 by (apply Ascii.eqb_neq; intros ->; vm_compute in Ha; lia).
  assert ((N_of_ascii a <? 32)%N = false) as E3.
  { apply N.ltb_ge. unfold byte in Ha. lia. }
  cbn [read_text]. rewrite E1, E2, E3, (IH H). destruct (read_text r) as [[v q]|]; reflexivity.
Qed.

Lemma read_text_ascii short a r : (byte a < 128)%N →
  read_text (json_ascii short a +:+ r) = prepend (String a "") (read_text r).
Proof.
  intros H. destruct a as [[] [] [] [] [] [] [] []]; try (exfalso; vm_compute in H; lia); destruct short; reflexivity.
Qed.

Lemma encode_high c : scalar c → (128 <= c)%N → sforall high (encode c) = true.
Proof.
  intros S H. unfold encode. destruct (N.ltb_spec c 128) as [?|_]; [lia|].
  assert (∀ x, (128 <= x < 256)%N → high (chr x) = true) as C.
  { intros x Hx. unfold high. rewrite byte_chr by lia. apply N.leb_le. lia. }
  assert (∀ x, (x mod 64 < 64)%N) as M by (intros; apply N.mod_lt; lia).
  pose proof (M c). pose proof (M (c / 64)%N). pose proof (M (c / 4096)%N).
  destruct (N.ltb_spec c 2048) as [L1|L1]; [|destruct (N.ltb_spec c 65536) as [L2|L2]].
  - assert (c / 64 < 32)%N by (apply N.div_lt_upper_bound; lia).
    simpl. rewrite !C by lia. done.
  - assert (c / 4096 < 16)%N by (apply N.div_lt_upper_bound; lia).
    simpl. rewrite !C by lia. done.
  - assert (c < 1114112)%N by num.
    assert (c / 262144 < 8)%N by (apply N.div_lt_upper_bound; lia).
    simpl. rewrite !C by lia. done.
Qed.

Lemma encode_cons c : ∃ a r, encode c = String a r ∧ ((c < 128)%N → a = chr c ∧ r = "").
Proof.
  unfold encode. destruct (N.ltb_spec c 128); [by eauto|].
  destruct (c <? 2048)%N; [|destruct (c <? 65536)%N]; eexists _, _; (split; [reflexivity|lia]).
Qed.

Lemma prepend_prepend p q x : prepend p (prepend q x) = prepend (p +:+ q) x.
Proof. destruct x as [[v r]|]; [simpl; by rewrite sapp_assoc|done]. Qed.

Lemma json_chars_high short n a s c w : (byte a <? 128)%N = false → decode_rune (String a s) = (c, w) → w ≠ 1 →
  json_chars short (S n) (String a s) =
    (if (c =? 8232)%N || (c =? 8233)%N
     then "\u202" +:+ String (hex4 (c mod 16)) "" +:+ json_chars short n (sdrop w (String a s))
     else stake w (String a s) +:+ json_chars short n (sdrop w (String a s))).
Proof.
  intros Hb D W. cbn [json_chars]. rewrite Hb, D. apply Nat.eqb_neq in W. by rewrite W, andb_false_r.
Qed.

Lemma read_json_chars short r s t : mended s t → ∀ n, String.length s ≤ n →
  read_text (json_chars short n s +:+ String quote r) = Some (t, r).
Proof.
  induction 1 as [|c s t Sc _ IH|a s t No _ IH]; intros n Hn.
  - destruct n; reflexivity.
  - destruct (encode_cons c) as (a & q & Ec & Low).
    pose proof (decode_encode c s Sc) as D.
    destruct n as [|n]; [rewrite slength_app, Ec in Hn; simpl in Hn; lia|].
    destruct (N.ltb_spec c 128) as [L|L].
    + destruct (Low L) as [-> ->]. rewrite Ec, sapp_cons, sapp_nil_l in *. cbn [json_chars].
      rewrite byte_chr by lia. apply N.ltb_lt in L as L'. rewrite L'.
      rewrite sapp_assoc, read_text_ascii by (rewrite byte_chr by lia; lia).
      rewrite IH by (simpl in Hn; lia). reflexivity.
    + pose proof (encode_high c Sc L) as Hi.
      assert (high a = true) as Ha.
      { rewrite Ec in Hi. apply andb_true_iff in Hi as [Ha _]. done. }
      apply N.leb_le in Ha. apply N.ltb_ge in Ha as Hb.
      assert (String.length (encode c) ≥ 2) as Len.
      { rewrite Ec in Hi |- *. destruct q; [|simpl; lia]. exfalso.
        unfold encode in Ec. apply N.ltb_ge in L. rewrite L in Ec.
        destruct (c <? 2048)%N; [|destruct (c <? 65536)%N]; discriminate. }
      assert (json_chars short (S n) (encode c +:+ s) =
        (if (c =? 8232)%N || (c =? 8233)%N
         then "\u202" +:+ String (hex4 (c mod 16)) "" +:+ json_chars short n s
         else encode c +:+ json_chars short n s)) as ->.
      { assert (encode c +:+ s = String a (q +:+ s)) as Es by (by rewrite Ec, sapp_cons).
        rewrite Es in D |- *. rewrite (json_chars_high short n a _ c _ Hb D) by lia.
        rewrite <- Es, stake_app, sdrop_app. done. }
      assert (read_text (json_chars short n s +:+ String quote r) = Some (t, r)) as R.
      { apply IH. rewrite slength_app in Hn. lia. }
      destruct ((c =? 8232)%N || (c =? 8233)%N) eqn:E.
      * apply orb_true_iff in E as [E|E]; apply N.eqb_eq in E as ->; rewrite !sapp_assoc;
          (transitivity (prepend (encode (8232)) (read_text (json_chars short n s +:+ String quote r)));
            [reflexivity|by rewrite R]) ||
          (transitivity (prepend (encode (8233)) (read_text (json_chars short n s +:+ String quote r)));
            [reflexivity|by rewrite R]).
      * rewrite sapp_assoc, read_text_high by done. by rewrite R.
  - destruct n as [|n]; [simpl in Hn; lia|].
    assert (byte a <? 128 = false)%N as Hb.
    { apply N.ltb_ge. destruct (N.le_gt_cases 128 (byte a)) as [H|H]; [done|exfalso].
      apply (No (byte a) s); [num|]. unfold encode. apply N.ltb_lt in H as ->. by rewrite chr_byte. }
    assert (decode_rune (String a s) = (rune_error, 1)) as D.
    { destruct (decode_rune (String a s)) as [x w] eqn:D.
      destruct (decide (x = rune_error ∧ w = 1)) as [[-> ->]|N]; [done|exfalso].
      destruct (encode_decode a s x w D) as (Sx & _ & u & Eu); [intros ? ->; by apply N|].
      by apply (No x u). }
    cbn [json_chars]. rewrite Hb, D. change ((rune_error =? rune_error)%N && Nat.eqb 1 1) with true. cbv iota.
    rewrite sapp_assoc.
    transitivity (prepend (encode 65533) (read_text (json_chars short n s +:+ String quote r))); [reflexivity|].
    rewrite IH by (simpl in Hn; lia). reflexivity.
Qed.

Lemma mended_total s : ∃ t, mended s t.
Proof.
  remember (String.length s) as n eqn:En. revert s En.
  induction (lt_wf n) as [n _ IH]. intros s ->. destruct s as [|a s]; [exists ""; constructor|].
  destruct (decode_rune (String a s)) as [x w] eqn:D.
  destruct (decide (x = rune_error ∧ w = 1)) as [[-> ->]|N].
  - destruct (IH (String.length s)) with (s := s) as [t Ht]; [simpl; lia|done|].
    exists (encode 65533 +:+ t). constructor; [|done]. intros c r Sc E.
    rewrite E, decode_encode in D by done. injection D as -> Hl. vm_compute in Hl. lia.
  - destruct (encode_decode a s x w D) as (Sx & _ & u & Eu); [intros ? ->; by apply N|].
    destruct (encode_cons x) as (b & q & Ec & _).
    destruct (IH (String.length u)) with (s := u) as [t Ht]; [rewrite Eu, slength_app, Ec; simpl; lia|done|].
    exists (encode x +:+ t). rewrite Eu. by constructor.
Qed.

Lemma mended_unique s t t' : mended s t → mended s t' → t = t'.
Proof.
  intros H H'. pose proof (read_json_chars true "" s t H _ (le_n _)) as E.
  rewrite (read_json_chars true "" s t' H' _ (le_n _)) in E. by injection E.
Qed.

Lemma mended_valid s : valid_utf8 s → mended s s.
Proof.
  intros (xs & F & ->). induction F as [|x xs Hx _ IH]; [constructor|].
  change (utf8 (x :: xs)) with (encode x +:+ utf8 xs). by constructor.
Qed.

(** Mending leaves valid UTF-8. *)
Lemma mended_is_valid s t : mended s t → valid_utf8 t.
Proof.
  induction 1 as [|c s t Sc _ (xs & F & ->)|a s t _ _ (xs & F & ->)].
  - by exists [].
  - exists (c :: xs). by split; [constructor|].
  - exists (65533%N :: xs). split; [constructor; [num|done]|done].
Qed.

(** ** Numbers *)

Lemma unorm_zero d e : unorm d = D0 e → e = Nil.
Proof. induction d; simpl; intros H; try discriminate; [by injection H|by apply IHd]. Qed.
Lemma to_uint_zero n e : Nat.to_uint n = D0 e → e = Nil.
Proof.
  intros H. apply (unorm_zero (Nat.to_uint n)). rewrite <- DecimalNat.Unsigned.to_of.
  by rewrite DecimalNat.Unsigned.of_to.
Qed.

Lemma digits_app d r : sforall is_digit d = true → match r with String a _ => is_digit a | "" => false end = false →
  digits (d +:+ r) = (d, r).
Proof.
  intros H Hr. induction d as [|a d IH].
  - rewrite sapp_nil_l. destruct r as [|b r]; [done|]. simpl. by rewrite Hr.
  - change (is_digit a && sforall is_digit d = true) in H. apply andb_true_iff in H as [Ha H].
    rewrite sapp_cons. cbn [digits]. rewrite Ha, (IH H). done.
Qed.

Lemma read_number_dec n r : match r with String a _ => is_digit a | "" => false end = false →
  read_number (dec n +:+ r) = Some (n, r).
Proof.
  intros Hr. unfold read_number. rewrite digits_app by (apply dec_digits || done).
  assert (NilZero.uint_of_string (dec n) = Some (Nat.to_uint n)) as U.
  { unfold dec. rewrite NilZero.usu; [done|apply to_uint_nonnil]. }
  assert ((u ← NilZero.uint_of_string (dec n); Some (Nat.of_uint u, r)) = Some (n, r)) as R.
  { rewrite U. simpl. by rewrite DecimalNat.Unsigned.of_to. }
  assert (∀ b q, dec n ≠ String "0" (String b q)) as Z.
  { intros b q E. unfold dec, NilZero.string_of_uint in E. destruct (Nat.to_uint n) as [|d|d|d|d|d|d|d|d|d|d] eqn:Ed; try discriminate.
    rewrite (to_uint_zero _ _ Ed) in E. discriminate. }
  destruct (dec n) as [|a [|b q]] eqn:Ed; [by apply dec_nonempty in Ed|..].
  - destruct a as [[] [] [] [] [] [] [] []]; exact R.
  - destruct a as [[] [] [] [] [] [] [] []]; try exact R. by destruct (Z b q).
Qed.

(** ** Values *)

Lemma read_value_string short n s t r : mended s t →
  read_value (S n) (json_string short s +:+ r) = Some (JStr t, r).
Proof.
  intros M. unfold json_string. rewrite sapp_cons, sapp_cons, sapp_assoc. cbn [read_value].
  change (skip (String quote (json_chars short (String.length s) s +:+ (String quote "" +:+ r))))
    with (String quote (json_chars short (String.length s) s +:+ String quote r)).
  unfold quote at 1. cbv iota. rewrite (read_json_chars short r s t M) by lia. reflexivity.
Qed.

Lemma read_value_dec n x r : match r with String a _ => is_digit a | "" => false end = false →
  read_value (S n) (dec x +:+ r) = Some (JNum x, r).
Proof.
  intros Hr. pose proof (read_number_dec x r Hr) as R. pose proof (dec_digits x) as D.
  destruct (dec x) as [|a d] eqn:E; [by apply dec_nonempty in E|].
  change (is_digit a && sforall is_digit d = true) in D. apply andb_true_iff in D as [Da _].
  rewrite sapp_cons in *. cbn [read_value].
  assert (skip (String a (d +:+ r)) = String a (d +:+ r)) as ->.
  { destruct a as [[] [] [] [] [] [] [] []]; reflexivity || discriminate Da. }
  destruct a as [[] [] [] [] [] [] [] []]; try discriminate Da; by rewrite R.
Qed.

Lemma read_member_more value k s name X v Y : read_text s = Some (name, String ":" X) →
  value X = Some (v, String "," (String quote Y)) →
  read_members value (S k) s = ('(ms, r) ← read_members value k Y; Some ((name, v) :: ms, r)).
Proof. intros H1 H2. cbn [read_members]. rewrite H1. cbn [mbind option_bind]. change (skip (String ":" X)) with (String ":" X). cbv iota beta. rewrite H2. reflexivity. Qed.

Lemma read_member_last value k s name X v Y : read_text s = Some (name, String ":" X) →
  value X = Some (v, String "}" Y) →
  read_members value (S k) s = Some ([(name, v)], Y).
Proof. intros H1 H2. cbn [read_members]. rewrite H1. cbn [mbind option_bind]. change (skip (String ":" X)) with (String ":" X). cbv iota beta. rewrite H2. reflexivity. Qed.

Lemma read_value_object n r ms q : read_members (read_value n) (String.length r) r = Some (ms, q) →
  read_value (S n) ("{" +:+ String quote r) = Some (JObj ms, q).
Proof. intros H. cbn [read_value]. change (skip ("{" +:+ String quote r)) with (String "{" (String quote r)). cbv iota.
  change (skip (String quote r)) with (String quote r). unfold quote. cbv iota. by rewrite H.
Qed.

Lemma read_value_doc short n d r l ti te st : mended (sd_location d) l → mended (sd_title d) ti →
  mended (sd_text d) te → mended (sd_section_tag d) st →
  read_value (S (S n)) (json_doc short d +:+ r) = Some (doc_json l ti te (sd_depth d) st, r).
Proof.
  intros Ml Mti Mte Mst. unfold json_doc.
  rewrite !sapp_assoc.
  match goal with |- read_value _ (_ +:+ ?R) = _ =>
    change (read_value (S (S n)) ("{" +:+ String quote ("location"":" +:+ R)) = Some (doc_json l ti te (sd_depth d) st, r)) end.
  apply read_value_object.
  match goal with |- read_members _ (String.length ("location"":" +:+ ?R)) _ = _ =>
    assert (String.length ("location"":" +:+ R) = 5 + (5 + String.length R)) as -> by reflexivity end.
  generalize (5 + String.length (json_string short (sd_location d) +:+
    ",""title"":" +:+ json_string short (sd_title d) +:+ ",""text"":" +:+ json_string short (sd_text d) +:+
    ",""depth"":" +:+ dec (sd_depth d) +:+ ",""section_tag"":" +:+ json_string short (sd_section_tag d) +:+ "}" +:+ r)).
  intros k. change (5 + k) with (S (S (S (S (S k))))).
  erewrite read_member_more; [|reflexivity|by apply read_value_string].
  erewrite read_member_more; [|reflexivity|by apply read_value_string].
  erewrite read_member_more; [|reflexivity|by apply read_value_string].
  erewrite read_member_more; [|reflexivity|by apply read_value_dec].
  erewrite read_member_last; [|reflexivity|by apply read_value_string].
  reflexivity.
Qed.

Lemma reads_total e : ∃ m, reads e m.
Proof.
  destruct e as [k d]. destruct (mended_total k) as [k' Hk], (mended_total (sd_location d)) as [l Hl],
    (mended_total (sd_title d)) as [ti Hti], (mended_total (sd_text d)) as [te Hte], (mended_total (sd_section_tag d)) as [st Hst].
  exists (k', doc_json l ti te (sd_depth d) st). split; [done|]. by exists l, ti, te, st.
Qed.

Lemma read_entries short n e es ms r k : Forall2 reads (e :: es) ms → length (e :: es) ≤ k →
  read_members (read_value (S (S n))) k
    (sdrop 1 (sjoin "," (map (json_entry short) (e :: es)) +:+ "}" +:+ r)) = Some (ms, r).
Proof.
  revert e ms k. induction es as [|e' es IH]; intros e ms k F Hk.
  - apply Forall2_cons_inv_l in F as (m & ms' & [Hm (l & ti & te & st & Em & Hl & Hti & Hte & Hst)] & F & ->).
    apply Forall2_nil_inv_l in F as ->. destruct k as [|k]; [simpl in Hk; lia|]. destruct m as [mk mv]. simpl in Hm, Em. subst mv.
    change (sjoin "," (map (json_entry short) [e])) with (json_entry short e). unfold json_entry, json_string at 1.
    rewrite !sapp_cons. cbn [sdrop]. rewrite !sapp_assoc.
    erewrite read_member_last; [reflexivity|by apply read_json_chars|].
    change ("}" +:+ r) with (String "}" r). by apply read_value_doc.
  - apply Forall2_cons_inv_l in F as (m & ms' & [Hm (l & ti & te & st & Em & Hl & Hti & Hte & Hst)] & F & ->).
    destruct k as [|k]; [simpl in Hk; lia|]. destruct m as [mk mv]. simpl in Hm, Em. subst mv.
    specialize (IH e' ms' k F ltac:(simpl in *; lia)).
    change (sjoin "," (map (json_entry short) (e :: e' :: es))) with
      (json_entry short e +:+ "," +:+ sjoin "," (map (json_entry short) (e' :: es))).
    assert (∃ Y, sjoin "," (map (json_entry short) (e' :: es)) +:+ "}" +:+ r = String quote Y) as [Y EY].
    { destruct es as [|e2 es]; eexists; reflexivity. }
    rewrite EY in IH. cbn [sdrop] in IH.
    unfold json_entry at 1, json_string at 1. rewrite !sapp_cons. cbn [sdrop]. rewrite !sapp_assoc.
    erewrite (read_member_more _ k _ mk _ (doc_json l ti te (sd_depth (snd e)) st) Y); [|by apply read_json_chars|].
    2:{ rewrite sapp_nil_l. rewrite (read_value_doc short n _ _ l ti te st) by done.
        change (Some (doc_json l ti te (sd_depth (snd e)) st,
          String "," (sjoin "," (map (json_entry short) (e' :: es)) +:+ "}" +:+ r)) =
          Some (doc_json l ti te (sd_depth (snd e)) st, String "," (String quote Y))).
        by rewrite EY. }
    rewrite IH. reflexivity.
Qed.

(** ** The order of keys *)

Lemma string_ltb_before s t : string_ltb s t = true ↔ before s t.
Proof.
  revert t. induction s as [|a s IH]; intros [|b t].
  - split; [done|]. intros [(x & r & E)|(p & x & y & r & q & E & _)]; [discriminate|by destruct p].
  - split; [|done]. intros _. left. by exists b, t.
  - split; [done|]. intros [(x & r & E)|(p & x & y & r & q & _ & E & _)]; [discriminate|by destruct p].
  - cbn [string_ltb]. destruct (N.ltb_spec (byte a) (byte b)) as [H|H].
    + split; [|done]. intros _. right. by exists "", a, b, s, t.
    + destruct (Ascii.eqb_spec a b) as [->|Ne].
      * rewrite IH. split.
        -- intros [(x & r & ->)|(p & x & y & r & q & -> & -> & L)]; [left; by exists x, r|right; by exists (String b p), x, y, r, q].
        -- intros [(x & r & E)|(p & x & y & r & q & E1 & E2 & L)].
           ++ injection E as ->. left. by exists x, r.
           ++ destruct p as [|c p]; [injection E1 as <- <-; injection E2 as <- <-; lia|].
              injection E1 as <- ->. injection E2 as ->. right. by exists p, x, y, r, q.
      * split; [done|]. intros [(x & r & E)|(p & x & y & r & q & E1 & E2 & L)]; [by injection E|].
        destruct p as [|c p]; [injection E1 as <- <-; injection E2 as <- <-; unfold byte in H; lia|].
        injection E1 as <- ->. by injection E2.
Qed.

Lemma byte_inj a b : byte a = byte b → a = b.
Proof. intros H. rewrite <- (chr_byte a), <- (chr_byte b). by f_equal. Qed.

Lemma string_ltb_trans s t u : string_ltb s t = true → string_ltb t u = true → string_ltb s u = true.
Proof.
  revert t u. induction s as [|a s IH]; intros [|b t] [|c u]; try done. cbn [string_ltb].
  destruct (N.ltb_spec (byte a) (byte b)) as [H|H].
  - intros _. destruct (N.ltb_spec (byte b) (byte c)) as [G|G].
    + intros _. by destruct (N.ltb_spec (byte a) (byte c)); [|lia].
    + destruct (Ascii.eqb_spec b c) as [<-|Nbc]; [|done]. intros _.
      by destruct (N.ltb_spec (byte a) (byte b)); [|lia].
  - destruct (Ascii.eqb_spec a b) as [<-|Nab]; [|done].
    intros E. destruct (byte a <? byte c)%N; [done|]. destruct (Ascii.eqb a c); [|done]. by apply IH.
Qed.

Lemma string_ltb_total s t : string_ltb s t = false → s = t ∨ string_ltb t s = true.
Proof.
  revert t. induction s as [|a s IH]; intros [|b t]; try done; [by left|by right|]. cbn [string_ltb].
  destruct (N.ltb_spec (byte a) (byte b)) as [H|H]; [done|].
  destruct (Ascii.eqb_spec a b) as [->|Ne].
  - intros E. rewrite N.ltb_irrefl, Ascii.eqb_refl. destruct (IH _ E) as [->|E']; [by left|by right].
  - intros _. right. destruct (N.ltb_spec (byte b) (byte a)) as [G|G]; [done|].
    exfalso. apply Ne, byte_inj. lia.
Qed.

Lemma key_insert_perm x l : key_insert x l ≡ₚ x :: l.
Proof.
  induction l as [|y l IH]; [done|]. cbn [key_insert]. destruct (string_ltb (fst x) (fst y)); [done|].
  rewrite IH. constructor.
Qed.
Lemma key_sort_perm l : key_sort l ≡ₚ l.
Proof. induction l as [|x l IH]; [done|]. cbn [key_sort]. by rewrite key_insert_perm, IH. Qed.

Definition keys_ordered (l : list (string * search_doc)) : Prop :=
  StronglySorted (λ x y, string_ltb (fst x) (fst y) = true) l.
Lemma key_insert_ordered x l : keys_ordered l → fst x ∉ map fst l → keys_ordered (key_insert x l).
Proof.
  induction 1 as [|y l S IH F]; intros N; [repeat constructor|].
  cbn [key_insert]. destruct (string_ltb (fst x) (fst y)) eqn:E.
  - constructor; [by constructor|]. constructor; [done|].
    eapply Forall_impl; [exact F|]. intros z Hz. by eapply string_ltb_trans.
  - simpl in N. apply not_elem_of_cons in N as [N1 N2]. constructor; [by apply IH|].
    rewrite key_insert_perm. constructor; [|done]. by destruct (string_ltb_total _ _ E).
Qed.
Lemma key_sort_ordered l : NoDup (map fst l) → keys_ordered (key_sort l).
Proof.
  induction l as [|x l IH]; intros N; [constructor|]. simpl in N. apply NoDup_cons in N as [N1 N2].
  cbn [key_sort]. apply key_insert_ordered; [by apply IH|]. by rewrite key_sort_perm.
Qed.
Lemma keys_ordered_before l : keys_ordered l → StronglySorted before (map fst l).
Proof.
  induction 1 as [|y l S IH F]; [constructor|]. simpl. constructor; [done|].
  apply Forall_map. eapply Forall_impl; [exact F|]. intros z Hz. by apply string_ltb_before.
Qed.

(** ** The whole file *)

Lemma key_sort_length l : length (key_sort l) = length l.
Proof. by rewrite key_sort_perm. Qed.

Lemma sjoin_length_ge (l : list string) : Forall (λ s, String.length s ≥ 1) l → String.length (sjoin "," l) ≥ length l.
Proof.
  induction 1 as [|s [|s' l] Hs F IH]; [simpl; lia|simpl; lia|].
  rewrite sjoin_cons, !slength_app. simpl length in *. lia.
Qed.

Lemma read_index short idx : ∃ ms, json_read (json_index short idx) = Some (JObj ms) ∧ Forall2 reads (key_sort idx) ms.
Proof.
  assert (∃ ms, Forall2 reads (key_sort idx) ms) as [ms F].
  { induction (key_sort idx) as [|e l [ms IH]]; [exists []; constructor|].
    destruct (reads_total e) as [m Hm]. exists (m :: ms). by constructor. }
  exists ms. split; [|done]. unfold json_index. destruct (key_sort idx) as [|e es] eqn:E.
  { apply Forall2_nil_inv_l in F as ->. reflexivity. }
  unfold json_read.
  set (J := sjoin "," (map (json_entry short) (e :: es))) in *.
  assert (String.length J ≥ length (e :: es)) as LJ.
  { subst J. rewrite <- (map_length (json_entry short) (e :: es)). apply sjoin_length_ge.
    apply Forall_map, Forall_forall. intros x _. unfold json_entry, json_string. simpl. lia. }
  assert (∃ Y, J = String quote Y) as [Y EY] by (subst J; destruct es; eexists; reflexivity).
  assert (∃ n, S (String.length ("{" +:+ J +:+ "}" +:+ nls)) = S (S (S n))) as [n ->].
  { rewrite !slength_app, EY. simpl. eexists. rewrite Nat.add_comm. reflexivity. }
  assert (read_value (S (S (S n))) ("{" +:+ J +:+ "}" +:+ nls) = Some (JObj ms, nls)) as ->; [|reflexivity].
  rewrite EY, sapp_cons. apply read_value_object.
  pose proof (read_entries short n e es ms nls (String.length (Y +:+ "}" +:+ nls)) F) as R.
  fold J in R. rewrite EY, sapp_cons in R. cbn [sdrop] in R. apply R.
  rewrite EY in LJ. rewrite !slength_app. simpl in *. lia.
Qed.

(** Bytes of the file. *)
Definition plain (a : ascii) : bool :=
  (32 <=? byte a)%N && negb (existsb (Ascii.eqb a) ["<"; ">"; "&"]%char).
Lemma json_ascii_plain short a : (byte a < 128)%N → sforall plain (json_ascii short a) = true.
Proof.
  intros H. destruct a as [[] [] [] [] [] [] [] []]; try (exfalso; vm_compute in H; lia); destruct short; reflexivity.
Qed.
Lemma high_plain a : high a = true → plain a = true.
Proof. destruct a as [[] [] [] [] [] [] [] []]; intros H; vm_compute in H; done || reflexivity. Qed.

Lemma json_chars_plain short n s : sforall plain (json_chars short n s) = true.
Proof.
  revert s. induction n as [|n IH]; intros s; [done|]. destruct s as [|a s]; [done|].
  destruct (byte a <? 128)%N eqn:Hb.
  - cbn [json_chars]. rewrite Hb, sforall_app, IH, json_ascii_plain by (by apply N.ltb_lt). done.
  - destruct (decode_rune (String a s)) as [c w] eqn:D.
    destruct (decide (c = rune_error ∧ w = 1)) as [[-> ->]|N].
    + cbn [json_chars]. rewrite Hb, D. change ((rune_error =? rune_error)%N && Nat.eqb 1 1) with true. cbv iota.
      by rewrite sforall_app, IH.
    + destruct (encode_decode a s c w D) as (Sc & Lw & u & Eu); [intros ? ->; by apply N|].
      assert (128 <= c)%N as Hc.
      { destruct (N.le_gt_cases 128 c) as [|L]; [done|exfalso]. unfold encode in Eu. apply N.ltb_lt in L as L'. rewrite L' in Eu.
        injection Eu as -> _. rewrite byte_chr in Hb by lia. congruence. }
      assert (w ≠ 1) as W1.
      { intros ->. unfold encode in Lw. apply N.ltb_ge in Hc. rewrite Hc in Lw.
        destruct (c <? 2048)%N; [|destruct (c <? 65536)%N]; discriminate. }
      rewrite (json_chars_high short n a s c w Hb D W1). rewrite Eu, <- Lw, stake_app.
      destruct ((c =? 8232)%N || (c =? 8233)%N) eqn:E.
      * apply orb_true_iff in E as [E|E]; apply N.eqb_eq in E as ->; rewrite !sforall_app, IH; reflexivity.
      * rewrite sforall_app, IH, andb_true_r. eapply sforall_impl; [|by apply encode_high]. apply high_plain.
Qed.

Lemma json_string_plain short s : sforall plain (json_string short s) = true.
Proof.
  unfold json_string. change (String quote ?x) with ((String quote "") +:+ x).
  rewrite !sforall_app, json_chars_plain. reflexivity.
Qed.
Lemma digit_plain a : is_digit a = true → plain a = true.
Proof. destruct a as [[] [] [] [] [] [] [] []]; intros H; vm_compute in H; done || reflexivity. Qed.
Lemma json_doc_plain short d : sforall plain (json_doc short d) = true.
Proof.
  unfold json_doc. rewrite !sforall_app, !json_string_plain.
  assert (sforall plain (dec (sd_depth d)) = true) as ->; [|reflexivity].
  eapply sforall_impl; [|apply dec_digits]. apply digit_plain.
Qed.
Lemma sjoin_plain l : Forall (λ s, sforall plain s = true) l → sforall plain (sjoin "," l) = true.
Proof.
  induction 1 as [|s [|s' l] Hs F IH]; [done|done|]. rewrite sjoin_cons, !sforall_app, Hs, IH. reflexivity.
Qed.
Lemma json_index_plain short idx : ∃ body, json_index short idx = body +:+ nls ∧ sforall plain body = true.
Proof.
  unfold json_index. exists ("{" +:+ sjoin "," (map (json_entry short) (key_sort idx)) +:+ "}").
  split; [by rewrite !sapp_assoc|]. rewrite !sforall_app, sjoin_plain; [reflexivity|].
  apply Forall_map, Forall_forall. intros x _. unfold json_entry.
  by rewrite !sforall_app, json_string_plain, json_doc_plain.
Qed.

Lemma reads_utf8 e m : entry_utf8 e → reads e m → m = entry_json e.
Proof.
  intros (Vk & Vl & Vti & Vte & Vst) (Hk & l & ti & te & st & Em & Hl & Hti & Hte & Hst). destruct m as [k v]. simpl in *.
  unfold entry_json. subst v.
  rewrite (mended_unique _ _ _ Hk (mended_valid _ Vk)), (mended_unique _ _ _ Hl (mended_valid _ Vl)),
    (mended_unique _ _ _ Hti (mended_valid _ Vti)), (mended_unique _ _ _ Hte (mended_valid _ Vte)),
    (mended_unique _ _ _ Hst (mended_valid _ Vst)). done.
Qed.

Lemma index_reads_mended short idx : NoDup (map fst idx) → ∃ es ms,
  es ≡ₚ idx ∧ StronglySorted before (map fst es) ∧
  json_read (json_index short idx) = Some (JObj ms) ∧ Forall2 reads es ms.
Proof.
  intros N. destruct (read_index short idx) as (ms & R & F).
  exists (key_sort idx), ms. split_and!; [apply key_sort_perm|by apply keys_ordered_before, key_sort_ordered|done|done].
Qed.

Lemma index_reads_back short idx : NoDup (map fst idx) → Forall entry_utf8 idx → ∃ es,
  es ≡ₚ idx ∧ StronglySorted before (map fst es) ∧
  json_read (json_index short idx) = Some (JObj (map entry_json es)).
Proof.
  intros N U. destruct (index_reads_mended short idx N) as (es & ms & P & S & R & F).
  exists es. split_and!; [done|done|]. rewrite R. do 2 f_equal.
  rewrite <- P in U. clear -U F. revert ms F. induction U as [|e es He U IH]; intros ms F.
  - by apply Forall2_nil_inv_l in F as ->.
  - apply Forall2_cons_inv_l in F as (m & ms' & Hm & F & ->). simpl. f_equal; [by apply reads_utf8|by apply IH].
Qed.

Lemma assoc_get_elem {V} k (v : V) m : assoc_get k m = Some v → (k, v) ∈ m.
Proof.
  induction m as [|[k' v'] m IH]; simpl; [done|]. destruct (String.eqb_spec k' k) as [->|].
  - intros [= ->]. left.
  - intros H. right. by apply IH.
Qed.
Lemma assoc_get_in {V} k (v : V) m : NoDup (map fst m) → (k, v) ∈ m → assoc_get k m = Some v.
Proof.
  induction m as [|[k' v'] m IH]; simpl; intros N H; [by apply elem_of_nil in H|].
  apply NoDup_cons in N as [N1 N2]. apply elem_of_cons in H as [[= -> ->]|H].
  - by rewrite String.eqb_refl.
  - destruct (String.eqb_spec k' k) as [->|]; [|by apply IH].
    destruct N1. apply elem_of_list_fmap. by exists (k, v).
Qed.
Lemma last_named_elem name ts t : last_named name ts t → t ∈ ts ∧ t_name t = name.
Proof. intros (N & l1 & l2 & -> & _). split; [|done]. apply elem_of_app. right. left. Qed.
Lemma last_named_unique name ts t t' : last_named name ts t → last_named name ts t' → t = t'.
Proof.
  intros (N & l1 & l2 & -> & H) (N' & l1' & l2' & E & H').
  revert l1' E. induction l1 as [|x l1 IH]; intros [|x' l1'] E; simpl in E.
  - by injection E.
  - injection E as -> ->. destruct (H t'); [|done]. apply elem_of_app. right. left.
  - injection E as -> <-. destruct (H' t); [|done]. apply elem_of_app. right. left.
  - injection E as -> E. by eapply IH.
Qed.
