(** The UTF-8 validator accepts exactly the encodings of scalar values. *)
From Verif Require Import Base BaseFacts Utf8 SpecUtf8.

Lemma n2b_eq n b : n < 256 -> b2n b = n -> n2b n = b.
Proof. intros Hn H. apply b2n_inj. rewrite b2n_n2b, H. now apply N.mod_small. Qed.

Ltac u8_unfold := unfold ok4, ok3, ok2, cont, in_range in *.

Lemma utf8_encode c r : scalar c -> utf8_valid (encode_scalar c ++ r) = utf8_valid r.
Proof.
  intro Hc. unfold scalar in Hc. unfold encode_scalar.
  destruct (c <? 0x80) eqn:E1.
  { cbn [app utf8_valid]. rewrite b2n_n2b. replace (c mod 256 <? 0x80) with true by lia. reflexivity. }
  destruct (c <? 0x800) eqn:E2.
  { cbn [app utf8_valid]. replace (b2n (n2b (0xC0 + c / 64)) <? 0x80) with false by (rewrite b2n_n2b; lia).
    replace (ok2 (n2b (0xC0 + c / 64)) (n2b (0x80 + c mod 64))) with true
      by (u8_unfold; rewrite !b2n_n2b; lia). reflexivity. }
  destruct (c <? 0x10000) eqn:E3.
  { cbn [app utf8_valid]. replace (b2n (n2b (0xE0 + c / 4096)) <? 0x80) with false by (rewrite b2n_n2b; lia).
    replace (ok2 (n2b (0xE0 + c / 4096)) (n2b (0x80 + c / 64 mod 64))) with false
      by (u8_unfold; rewrite !b2n_n2b; lia).
    replace (ok3 (n2b (0xE0 + c / 4096)) (n2b (0x80 + c / 64 mod 64)) (n2b (0x80 + c mod 64))) with true
      by (u8_unfold; rewrite !b2n_n2b; lia). reflexivity. }
  cbn [app utf8_valid]. replace (b2n (n2b (0xF0 + c / 262144)) <? 0x80) with false by (rewrite b2n_n2b; lia).
  replace (ok2 (n2b (0xF0 + c / 262144)) (n2b (0x80 + c / 4096 mod 64))) with false
    by (u8_unfold; rewrite !b2n_n2b; lia).
  replace (ok3 (n2b (0xF0 + c / 262144)) (n2b (0x80 + c / 4096 mod 64)) (n2b (0x80 + c / 64 mod 64))) with false
    by (u8_unfold; rewrite !b2n_n2b; lia).
  replace (ok4 (n2b (0xF0 + c / 262144)) (n2b (0x80 + c / 4096 mod 64)) (n2b (0x80 + c / 64 mod 64)) (n2b (0x80 + c mod 64))) with true
    by (u8_unfold; rewrite !b2n_n2b; lia).
  reflexivity.
Qed.

Lemma decode1 a : (b2n a <? 0x80) = true -> scalar (b2n a) /\ encode_scalar (b2n a) = [a].
Proof.
  intro H. split; [unfold scalar; lia|]. unfold encode_scalar. rewrite H. now rewrite n2b_b2n.
Qed.
Lemma decode2 a b : ok2 a b = true ->
  let c := (b2n a - 0xC0) * 64 + (b2n b - 0x80) in scalar c /\ encode_scalar c = [a; b].
Proof.
  intros H c. u8_unfold. unfold scalar, encode_scalar.
  replace (c <? 0x80) with false by lia. replace (c <? 0x800) with true by lia.
  split; [lia|]. repeat f_equal; apply n2b_eq; lia.
Qed.
Lemma decode3 a b d : ok3 a b d = true ->
  let c := (b2n a - 0xE0) * 4096 + (b2n b - 0x80) * 64 + (b2n d - 0x80) in scalar c /\ encode_scalar c = [a; b; d].
Proof.
  intros H c. u8_unfold. unfold scalar, encode_scalar.
  replace (c <? 0x80) with false by lia. replace (c <? 0x800) with false by lia.
  replace (c <? 0x10000) with true by lia.
  split; [lia|]. repeat f_equal; apply n2b_eq; lia.
Qed.
Lemma decode4 a b d e : ok4 a b d e = true ->
  let c := (b2n a - 0xF0) * 262144 + (b2n b - 0x80) * 4096 + (b2n d - 0x80) * 64 + (b2n e - 0x80) in
  scalar c /\ encode_scalar c = [a; b; d; e].
Proof.
  intros H c. u8_unfold. unfold scalar, encode_scalar.
  replace (c <? 0x80) with false by lia. replace (c <? 0x800) with false by lia.
  replace (c <? 0x10000) with false by lia.
  split; [lia|]. repeat f_equal; apply n2b_eq; lia.
Qed.

Lemma is_utf8_cons c l : scalar c -> is_utf8 l -> is_utf8 (encode_scalar c ++ l).
Proof. intros Hc [cs [F ->]]. exists (c :: cs). split; [now constructor|reflexivity]. Qed.

Lemma utf8_valid_sound k : forall l, (length l <= k)%nat -> utf8_valid l = true -> is_utf8 l.
Proof.
  induction k as [|k IH]; intros l Hl H.
  { destruct l; [|cbn in Hl; lia]. exists []. now split. }
  destruct l as [|a r1]; [exists []; now split|]. cbn [utf8_valid] in H. cbn [length] in Hl.
  destruct (b2n a <? 0x80) eqn:E1.
  { destruct (decode1 a E1) as [S E]. change (a :: r1) with ([a] ++ r1). rewrite <- E.
    apply is_utf8_cons; [easy|]. apply IH; [lia|easy]. }
  destruct r1 as [|b r2]; [discriminate|]. cbn [length] in Hl.
  destruct (ok2 a b) eqn:E2.
  { destruct (decode2 a b E2) as [S E]. change (a :: b :: r2) with ([a; b] ++ r2). rewrite <- E.
    apply is_utf8_cons; [easy|]. apply IH; [lia|easy]. }
  destruct r2 as [|c r3]; [discriminate|]. cbn [length] in Hl.
  destruct (ok3 a b c) eqn:E3.
  { destruct (decode3 a b c E3) as [S E]. change (a :: b :: c :: r3) with ([a; b; c] ++ r3). rewrite <- E.
    apply is_utf8_cons; [easy|]. apply IH; [lia|easy]. }
  destruct r3 as [|d r4]; [discriminate|]. cbn [length] in Hl.
  destruct (ok4 a b c d) eqn:E4; [|discriminate].
  destruct (decode4 a b c d E4) as [S E]. change (a :: b :: c :: d :: r4) with ([a; b; c; d] ++ r4). rewrite <- E.
  apply is_utf8_cons; [easy|]. apply IH; [lia|easy].
Qed.

Theorem utf8_valid_iff l : utf8_valid l = true <-> is_utf8 l.
Proof.
  split; [now apply (utf8_valid_sound (length l))|].
  intros [cs [F ->]]. induction F as [|c cs Hc F IH]; [reflexivity|].
  cbn [map concat]. now rewrite utf8_encode.
Qed.

Lemma ascii_utf8 l : is_ascii l = true -> utf8_valid l = true.
Proof.
  induction l as [|a l IH]; cbn; [easy|]. intro H. apply andb_prop in H. destruct H as [-> H]. auto.
Qed.
