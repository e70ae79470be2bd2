(** The decoder of Utf8.v against the encoder of ParseSpec.v, and positions of the
    parser against positions in the file. *)
From Coq Require Import Ascii String NArith ZArith Lia.
From stdpp Require Import base tactics relations strings numbers list.
From Verif Require Import GoBase Ast Utf8 Peg StrProofs PegBase PegErrs ParseSpec ParserMain.
Local Open Scope string_scope.
Local Open Scope list_scope.

Lemma byte_chr x : (x < 256)%N → byte (chr x) = x.
Proof. apply N_ascii_embedding. Qed.
Lemma chr_byte a : chr (byte a) = a.
Proof. apply ascii_N_embedding. Qed.

Ltac Zify.zify_post_hook ::= Z.to_euclidean_division_equations.
Ltac num := unfold scalar, rune_error in *; lia.

Lemma within_chr lo hi x : (x < 256)%N → (lo <= x <= hi)%N → within lo hi (chr x) = true.
Proof. intros H [H1 H2]. unfold within. rewrite byte_chr by done. apply andb_true_iff. by rewrite !N.leb_le. Qed.

Lemma decode_encode x s : scalar x → decode_rune (encode x +:+ s) = (x, String.length (encode x)).
Proof.
  intros Hx. unfold encode.
  destruct (N.ltb_spec x 128) as [H1|H1].
  { simpl. rewrite decode_ascii; rewrite byte_chr by num; done. }
  destruct (N.ltb_spec x 2048) as [H2|H2].
  { simpl. unfold decode_rune, lead_of. rewrite byte_chr by num.
    destruct (N.ltb_spec (192 + x / 64) 128); [num|].
    destruct (N.ltb_spec (192 + x / 64) 194); [num|].
    destruct (N.ltb_spec (192 + x / 64) 224); [|num].
    rewrite within_chr by num. unfold low6. rewrite byte_chr by num. f_equal. num. }
  destruct (N.ltb_spec x 65536) as [H3|H3].
  { simpl. unfold decode_rune, lead_of. rewrite byte_chr by num.
    destruct (N.ltb_spec (224 + x / 4096) 128); [num|].
    destruct (N.ltb_spec (224 + x / 4096) 194); [num|].
    destruct (N.ltb_spec (224 + x / 4096) 224); [num|].
    destruct (N.eqb_spec (224 + x / 4096) 224).
    { rewrite !within_chr by num. simpl. unfold low6. rewrite !byte_chr by num. f_equal. num. }
    destruct (N.eqb_spec (224 + x / 4096) 237).
    { rewrite !within_chr by num. simpl. unfold low6. rewrite !byte_chr by num. f_equal. num. }
    destruct (N.ltb_spec (224 + x / 4096) 240); [|num].
    rewrite !within_chr by num. simpl. unfold low6. rewrite !byte_chr by num. f_equal. num. }
  simpl. unfold decode_rune, lead_of. rewrite byte_chr by num.
  destruct (N.ltb_spec (240 + x / 262144) 128); [num|].
  destruct (N.ltb_spec (240 + x / 262144) 194); [num|].
  destruct (N.ltb_spec (240 + x / 262144) 224); [num|].
  destruct (N.eqb_spec (240 + x / 262144) 224); [num|].
  destruct (N.eqb_spec (240 + x / 262144) 237); [num|].
  destruct (N.ltb_spec (240 + x / 262144) 240); [num|].
  destruct (N.eqb_spec (240 + x / 262144) 240).
  { rewrite !within_chr by num. simpl. unfold low6. rewrite !byte_chr by num. f_equal. num. }
  destruct (N.ltb_spec (240 + x / 262144) 244).
  { rewrite !within_chr by num. simpl. unfold low6. rewrite !byte_chr by num. f_equal. num. }
  destruct (N.eqb_spec (240 + x / 262144) 244); [|num].
  rewrite !within_chr by num. simpl. unfold low6. rewrite !byte_chr by num. f_equal. num.
Qed.

Lemma chr_is x a : x = byte a → chr x = a.
Proof. intros ->. apply chr_byte. Qed.

(** What the decoder accepts is an encoding. *)
Lemma encode_decode a r x w : decode_rune (String a r) = (x, w) → (x = rune_error → w ≠ 1) →
  scalar x ∧ String.length (encode x) = w ∧ ∃ u, String a r = encode x +:+ u.
Proof.
  unfold decode_rune, lead_of. pose proof (byte_lt a) as Ha.
  destruct (N.ltb_spec (byte a) 128) as [H|H].
  { intros [= <- <-] _. split; [num|]. unfold encode. apply N.ltb_lt in H as ->. split; [done|].
    exists r. simpl. by rewrite chr_byte. }
  destruct (N.ltb_spec (byte a) 194) as [H1|H1]; [intros [= <- <-] E; by destruct E|].
  assert (∀ v b w', (v = byte a - 192)%N → (byte a < 224)%N → within 128 191 b = true →
    scalar (v * 64 + low6 b) ∧ String.length (encode (v * 64 + low6 b)) = 2 ∧
    ∃ u, String a (String b w') = encode (v * 64 + low6 b) +:+ u) as D2.
  { intros v b w' -> Hlt [L1 L2]%within_le. unfold low6. split; [num|]. unfold encode.
    destruct (N.ltb_spec ((byte a - 192) * 64 + (byte b - 128)) 128); [num|].
    destruct (N.ltb_spec ((byte a - 192) * 64 + (byte b - 128)) 2048); [|num].
    split; [done|]. exists w'. simpl. f_equal; [symmetry; apply chr_is; num|].
    f_equal. symmetry. apply chr_is. num. }
  assert (∀ v lo hi b c w', (v = byte a - 224)%N → (224 <= byte a < 240)%N → within lo hi b = true →
    within 128 191 c = true → (128 <= lo ∧ hi <= 191)%N → (byte a = 224 → lo = 160)%N → (byte a = 237 → hi = 159)%N →
    scalar (v * 4096 + low6 b * 64 + low6 c) ∧ String.length (encode (v * 4096 + low6 b * 64 + low6 c)) = 3 ∧
    ∃ u, String a (String b (String c w')) = encode (v * 4096 + low6 b * 64 + low6 c) +:+ u) as D3.
  { intros v lo hi b c w' -> [H2 H3] [L1 L2]%within_le [M1 M2]%within_le [Hlo Hhi] E1 E2. unfold low6.
    assert (2048 <= (byte a - 224) * 4096 + (byte b - 128) * 64 + (byte c - 128) < 65536)%N as [B1 B2].
    { destruct (decide (byte a = 224)%N) as [E|E]; [specialize (E1 E)|]; num. }
    split.
    { destruct (decide (byte a = 237)%N) as [E|E]; [specialize (E2 E)|]; num. }
    unfold encode.
    destruct (N.ltb_spec ((byte a - 224) * 4096 + (byte b - 128) * 64 + (byte c - 128)) 128); [num|].
    destruct (N.ltb_spec ((byte a - 224) * 4096 + (byte b - 128) * 64 + (byte c - 128)) 2048); [num|].
    destruct (N.ltb_spec ((byte a - 224) * 4096 + (byte b - 128) * 64 + (byte c - 128)) 65536); [|num].
    split; [done|]. exists w'. simpl. f_equal; [symmetry; apply chr_is; num|].
    f_equal; [symmetry; apply chr_is; num|]. f_equal. symmetry. apply chr_is. num. }
  assert (∀ v lo hi b c d w', (v = byte a - 240)%N → (240 <= byte a < 245)%N → within lo hi b = true →
    within 128 191 c = true → within 128 191 d = true →
    (128 <= lo ∧ hi <= 191)%N → (byte a = 240 → lo = 144)%N → (byte a = 244 → hi = 143)%N →
    let x := (v * 262144 + low6 b * 4096 + low6 c * 64 + low6 d)%N in
    scalar x ∧ String.length (encode x) = 4 ∧
    ∃ u, String a (String b (String c (String d w'))) = encode x +:+ u) as D4.
  { intros v lo hi b c d w' -> [H2 H3] [L1 L2]%within_le [M1 M2]%within_le [P1 P2]%within_le [Hlo Hhi] E1 E2 y.
    unfold low6 in y.
    assert (65536 <= y < 1114112)%N as [B1 B2].
    { subst y. destruct (decide (byte a = 240)%N) as [E|E]; [specialize (E1 E)|];
        (destruct (decide (byte a = 244)%N) as [E'|E']; [specialize (E2 E')|]); num. }
    split; [num|]. unfold encode.
    destruct (N.ltb_spec y 128); [num|]. destruct (N.ltb_spec y 2048); [num|].
    destruct (N.ltb_spec y 65536); [num|].
    split; [done|]. exists w'. simpl. subst y. f_equal; [symmetry; apply chr_is; num|].
    f_equal; [symmetry; apply chr_is; num|].
    f_equal; [symmetry; apply chr_is; num|]. f_equal. symmetry. apply chr_is. num. }
  destruct (N.ltb_spec (byte a) 224) as [H2|H2].
  { destruct r as [|b r]; [intros [= <- <-] E; by destruct E|].
    destruct (within _ _ b) eqn:Hb; intros [= <- <-] E; [|by destruct E]. by apply D2. }
  destruct (N.eqb_spec (byte a) 224) as [H3|H3].
  { destruct r as [|b [|c r]]; [intros [= <- <-] E; by destruct E..|].
    destruct (_ && _) eqn:Hb; intros [= <- <-] E; [|by destruct E]. apply andb_true_iff in Hb as [Hb Hc].
    eapply (D3 0%N); [num|num|exact Hb|done|num|num|num]. }
  destruct (N.eqb_spec (byte a) 237) as [H4|H4].
  { destruct r as [|b [|c r]]; [intros [= <- <-] E; by destruct E..|].
    destruct (_ && _) eqn:Hb; intros [= <- <-] E; [|by destruct E]. apply andb_true_iff in Hb as [Hb Hc].
    eapply (D3 13%N); [num|num|exact Hb|done|num|num|num]. }
  destruct (N.ltb_spec (byte a) 240) as [H5|H5].
  { destruct r as [|b [|c r]]; [intros [= <- <-] E; by destruct E..|].
    destruct (_ && _) eqn:Hb; intros [= <- <-] E; [|by destruct E]. apply andb_true_iff in Hb as [Hb Hc].
    eapply D3; [num|num|exact Hb|done|num|num|num]. }
  destruct (N.eqb_spec (byte a) 240) as [H6|H6].
  { destruct r as [|b [|c [|d r]]]; [intros [= <- <-] E; by destruct E..|].
    destruct (_ && _) eqn:Hb; intros [= <- <-] E; [|by destruct E]. apply andb_true_iff in Hb as [Hb Hd].
    apply andb_true_iff in Hb as [Hb Hc]. eapply (D4 0%N); [num|num|exact Hb|done|done|num|num|num]. }
  destruct (N.ltb_spec (byte a) 244) as [H7|H7].
  { destruct r as [|b [|c [|d r]]]; [intros [= <- <-] E; by destruct E..|].
    destruct (_ && _) eqn:Hb; intros [= <- <-] E; [|by destruct E]. apply andb_true_iff in Hb as [Hb Hd].
    apply andb_true_iff in Hb as [Hb Hc]. eapply D4; [num|num|exact Hb|done|done|num|num|num]. }
  destruct (N.eqb_spec (byte a) 244) as [H8|H8]; [|intros [= <- <-] E; by destruct E].
  destruct r as [|b [|c [|d r]]]; [intros [= <- <-] E; by destruct E..|].
  destruct (_ && _) eqn:Hb; intros [= <- <-] E; [|by destruct E]. apply andb_true_iff in Hb as [Hb Hd].
  apply andb_true_iff in Hb as [Hb Hc]. eapply (D4 4%N); [num|num|exact Hb|done|done|num|num|num].
Qed.
