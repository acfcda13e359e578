(** The DEFLATE decoder finds the end of its data by itself. *)
From Verif Require Import Base BaseFacts Headers SpecRead SpecWrite EntryReader SpecExact Inflate SpecAccept SpecSalvage.
Arguments N.add : simpl never.
Arguments N.sub : simpl never.
Arguments N.min : simpl never.
Arguments N.mul : simpl never.

(** ** What follows the compressed data does not matter *)
Definition more (t : bytes) (s : bitstream) : bitstream := (fst s, snd s ++ t).
Lemma get_bit_more t s b s' : get_bit s = Some (b, s') -> get_bit (more t s) = Some (b, more t s').
Proof.
  destruct s as [[|b0 p] r]; unfold more; cbn [get_bit fst snd].
  - destruct r as [|x r]; [discriminate|]. cbn [app]. destruct (byte_bits x) as [|c q]; [discriminate|]. intro E. now injection E as <- <-.
  - intro E. now injection E as <- <-.
Qed.
Lemma get_bits_more t n : forall s v s', get_bits n s = Some (v, s') -> get_bits n (more t s) = Some (v, more t s').
Proof.
  induction n as [|n IH]; cbn [get_bits]; intros s v s' E; [now injection E as <- <-|].
  destruct (get_bit s) as [[b s1]|] eqn:B; [|discriminate]. rewrite (get_bit_more t _ _ _ B). destruct (get_bits n s1) as [[w s2]|] eqn:G; [|discriminate].
  rewrite (IH _ _ _ G). now injection E as <- <-.
Qed.
Lemma get_symbol_more t h : forall code first s v s', get_symbol h code first s = Some (v, s') -> get_symbol h code first (more t s) = Some (v, more t s').
Proof.
  induction h as [|syms h IH]; cbn [get_symbol]; intros code first s v s' E; [discriminate|].
  destruct (get_bit s) as [[b s1]|] eqn:B; [|discriminate]. rewrite (get_bit_more t _ _ _ B). destruct (_ <? len syms).
  - destruct (nth_error _ _); [|discriminate]. now injection E as <- <-.
  - now apply IH.
Qed.
Lemma get_coded_more t tab c s v s' : get_coded tab c s = Some (v, s') -> get_coded tab c (more t s) = Some (v, more t s').
Proof.
  unfold get_coded. destruct (nth_error tab _) as [[base ex]|]; [|discriminate]. destruct (get_bits _ s) as [[w s1]|] eqn:G; [|discriminate].
  rewrite (get_bits_more t _ _ _ _ G). intro E. now injection E as <- <-.
Qed.
Lemma codes_more t lit dist k : forall f out s o s', codes f lit dist out s = (o, Some s') -> codes (f + k) lit dist out (more t s) = (o, Some (more t s')).
Proof.
  induction f as [|f IH]; cbn [codes Nat.add]; intros out s o s' E; [discriminate|].
  destruct (get_symbol lit 0 0 s) as [[x s1]|] eqn:G; [|discriminate]. rewrite (get_symbol_more t _ _ _ _ _ _ G).
  destruct (x <? 256); [now apply IH|]. destruct (x =? 256); [now injection E as <- <-|].
  destruct (get_coded length_codes (x - 257) s1) as [[n s2]|] eqn:G2; [|discriminate]. rewrite (get_coded_more t _ _ _ _ _ G2).
  destruct (get_symbol dist 0 0 s2) as [[y s3]|] eqn:G3; [|discriminate]. rewrite (get_symbol_more t _ _ _ _ _ _ G3).
  destruct (get_coded distance_codes y s3) as [[d s4]|] eqn:G4; [|discriminate]. rewrite (get_coded_more t _ _ _ _ _ G4).
  destruct (copy_back _ _ out); [|discriminate]. now apply IH.
Qed.
Lemma get_lengths3_more t n : forall s v s', get_lengths3 n s = Some (v, s') -> get_lengths3 n (more t s) = Some (v, more t s').
Proof.
  induction n as [|n IH]; cbn [get_lengths3]; intros s v s' E; [now injection E as <- <-|].
  destruct (get_bits 3 s) as [[b s1]|] eqn:B; [|discriminate]. rewrite (get_bits_more t _ _ _ _ B). destruct (get_lengths3 n s1) as [[w s2]|] eqn:G; [|discriminate].
  rewrite (IH _ _ _ G). now injection E as <- <-.
Qed.
Lemma get_lengths_more t h n : forall f acc s v s', get_lengths f h n acc s = Some (v, s') -> get_lengths f h n acc (more t s) = Some (v, more t s').
Proof.
  induction f as [|f IH]; cbn [get_lengths]; intros acc s v s' E; [discriminate|].
  destruct (n <=? len acc); [destruct (n =? len acc); [now injection E as <- <-|discriminate]|].
  destruct (get_symbol h 0 0 s) as [[x s1]|] eqn:G; [|discriminate]. rewrite (get_symbol_more t _ _ _ _ _ _ G).
  destruct (x <? 16); [now apply IH|].
  assert (A : forall w (b : nat) base, match get_bits b s1 with None => None | Some (k, s) => get_lengths f h n (repeat w (N.to_nat (base + k)) ++ acc) s end = Some (v, s') ->
    match get_bits b (more t s1) with None => None | Some (k, s) => get_lengths f h n (repeat w (N.to_nat (base + k)) ++ acc) s end = Some (v, more t s')).
  { intros w b base H. destruct (get_bits b s1) as [[k s2]|] eqn:B; [|discriminate]. rewrite (get_bits_more t _ _ _ _ B). now apply IH. }
  destruct (x =? 16); [destruct acc; [discriminate|now apply A]|]. destruct (x =? 17); now apply A.
Qed.
Lemma dynamic_more t s a b s' : dynamic s = Some (a, b, s') -> dynamic (more t s) = Some (a, b, more t s').
Proof.
  unfold dynamic. intro E.
  destruct (get_bits 5 s) as [[v1 s1]|] eqn:B; [|discriminate]. rewrite (get_bits_more t _ _ _ _ B). clear B.
  destruct (get_bits 5 s1) as [[v2 s2]|] eqn:B; [|discriminate]. rewrite (get_bits_more t _ _ _ _ B). clear B.
  destruct (get_bits 4 s2) as [[v3 s3]|] eqn:B; [|discriminate]. rewrite (get_bits_more t _ _ _ _ B). clear B.
  destruct (get_lengths3 _ s3) as [[l s4]|] eqn:B; [|discriminate]. rewrite (get_lengths3_more t _ _ _ _ B). clear B.
  destruct (get_lengths 400 _ _ _ s4) as [[l' s5]|] eqn:B; [|discriminate]. rewrite (get_lengths_more t _ _ _ _ _ _ _ B).
  injection E as <- <- <-. reflexivity.
Qed.
Lemma stored_more t out r o s' : stored_block out r = (o, Some s') -> stored_block out (r ++ t) = (o, Some (more t s')).
Proof.
  unfold stored_block. destruct r as [|a [|b [|c [|d r]]]]; try discriminate. cbn [app]. destruct (_ =? 65535); [|discriminate].
  set (n := b2n a + 256 * b2n b). destruct (n <=? len r) eqn:L; [|discriminate]. intro E. injection E as <- <-.
  replace (n <=? len (r ++ t)) with true by (rewrite len_app; lia). rewrite take_app_le by lia. unfold more. cbn [fst snd]. rewrite drop_app_le by lia. reflexivity.
Qed.
Lemma blocks_more t k : forall f out s o s', blocks f out s = (o, Some s') -> blocks (f + k) out (more t s) = (o, Some (more t s')).
Proof.
  induction f as [|f IH]; cbn [blocks Nat.add]; intros out s o s' E; [discriminate|].
  destruct (get_bits 1 s) as [[v1 s1]|] eqn:B; [|discriminate]. rewrite (get_bits_more t _ _ _ _ B). clear B.
  destruct (get_bits 2 s1) as [[v2 s2]|] eqn:B; [|discriminate]. rewrite (get_bits_more t _ _ _ _ B). clear B.
  assert (FU : forall s, exists k, (8 * S (length (snd (more t s))) = 8 * S (length (snd s)) + k)%nat).
  { intro q. exists (8 * length t)%nat. unfold more. cbn [snd]. rewrite app_length. lia. }
  match type of E with (let '(o, x) := ?m in _) = _ => assert (M : forall o1 s3, m = (o1, Some s3) ->
    (if v2 =? 0 then stored_block out (snd (more t s2))
     else if v2 =? 1 then codes (8 * S (length (snd (more t s2)))) fixed_lit fixed_dist out (more t s2)
     else if v2 =? 2 then
       match dynamic (more t s2) with None => (out, None) | Some (lit, dist, s) => codes (8 * S (length (snd s))) lit dist out s end
     else (out, None)) = (o1, Some (more t s3))) end.
  { intros o1 s3 H. destruct (v2 =? 0); [now apply stored_more|]. destruct (v2 =? 1).
    { destruct (FU s2) as (j & ->). now apply codes_more. }
    destruct (v2 =? 2); [|discriminate]. destruct (dynamic s2) as [[[a b] s4]|] eqn:D; [|discriminate]. rewrite (dynamic_more t _ _ _ _ D).
    destruct (FU s4) as (j & ->). now apply codes_more. }
  match type of E with (let '(o, x) := ?m in _) = _ => destruct m as [o1 [s3|]]; [|discriminate] end. rewrite (M _ _ eq_refl).
  destruct (v1 =? 1); [now injection E as <- <-|]. now apply IH.
Qed.
Lemma flate_self_ending : self_ending flate.
Proof.
  intros c z x rest _ E. cbn [dec flate] in *. unfold inflate in *. destruct (blocks (8 * S (length z)) [] ([], z)) as [o [[p r]|]] eqn:B; [|discriminate].
  replace (8 * S (length (z ++ rest)))%nat with (8 * S (length z) + 8 * length rest)%nat by (rewrite app_length; lia).
  change ([], z ++ rest) with (more rest ([], z)). rewrite (blocks_more rest _ _ _ _ _ _ B). unfold more. cbn [fst snd].
  assert (E1 : x = rev o) by congruence. assert (E2 : len z - len r = len z) by congruence. subst x. f_equal. f_equal. rewrite !len_app. lia.
Qed.

(** ** Nor does the decoder see past the end *)
(** [f] uses the bytes [c] only, and at least [n] bits of what there is to read *)
Definition bits (s : bitstream) : nat := (length (fst s) + 8 * length (snd s))%nat.
(** at most seven bits of a byte that was begun are left *)
Definition begun (s : bitstream) : Prop := (length (fst s) < 8)%nat.
Definition spent (s s' : bitstream) (c : bytes) (n : nat) : Prop := snd s = c ++ snd s' /\ (bits s' + n <= bits s)%nat /\ (begun s -> begun s').
Definition uses {A} (f : bitstream -> option (A * bitstream)) (n : nat) : Prop := forall s v s', f s = Some (v, s') ->
  exists c, spent s s' c n /\ forall t, f (fst s, c ++ t) = Some (v, (fst s', t)).
Lemma spent_app s1 s2 s3 c d n m : spent s1 s2 c n -> spent s2 s3 d m -> spent s1 s3 (c ++ d) (n + m).
Proof. intros (A & B & B') (C & D & D'). split; [now rewrite <- app_assoc, <- C|]. split; [lia|auto]. Qed.
Lemma spent_none s n : n = 0%nat -> spent s s [] n. Proof. intros ->. split; [reflexivity|]. split; [lia|auto]. Qed.
Lemma spent_less s s' c n m : spent s s' c n -> (m <= n)%nat -> spent s s' c m. Proof. intros (A & B & B') L. split; [exact A|]. split; [lia|exact B']. Qed.
Lemma get_bit_uses : uses get_bit 1.
Proof.
  intros [[|b0 p] r] v s'; cbn [get_bit fst snd].
  - destruct r as [|x r]; [discriminate|]. assert (E8 : length (byte_bits x) = 8%nat) by reflexivity. destruct (byte_bits x) as [|c q] eqn:E; [discriminate|].
    intro H. injection H as <- <-. exists [x]. split; [split; [reflexivity|unfold bits, begun; cbn [fst snd length] in *; lia]|]. intro t. cbn [app get_bit]. now rewrite E.
  - intro H. injection H as <- <-. exists []. split; [split; [reflexivity|unfold bits, begun; cbn [fst snd length]; lia]|]. reflexivity.
Qed.
Ltac used H U c S T := let F := fresh in pose proof H as F; apply U in F; destruct F as (c & S & T).
Lemma get_bits_uses n : uses (get_bits n) n.
Proof.
  induction n as [|n IH]; cbn [get_bits]; intros s v s' E; [injection E as <- <-; exists []; split; [now apply spent_none|reflexivity]|].
  destruct (get_bit s) as [[b s1]|] eqn:B; [|discriminate]. used B get_bit_uses c1 S1 T1.
  destruct (get_bits n s1) as [[w s2]|] eqn:G; [|discriminate]. used G IH c2 S2 T2. injection E as <- <-.
  exists (c1 ++ c2). split; [exact (spent_app _ _ _ _ _ 1 n S1 S2)|]. intro t. now rewrite <- app_assoc, T1, T2.
Qed.
Lemma get_symbol_uses h : forall code first, uses (get_symbol h code first) 1.
Proof.
  induction h as [|syms h IH]; cbn [get_symbol]; intros code first s v s' E; [discriminate|].
  destruct (get_bit s) as [[b s1]|] eqn:B; [|discriminate]. used B get_bit_uses c1 S1 T1. destruct (_ <? len syms) eqn:L.
  - destruct (nth_error _ _) eqn:NE; [|discriminate]. injection E as <- <-. exists c1. split; [exact S1|]. intro t. now rewrite T1, L, NE.
  - used E IH c2 S2 T2. exists (c1 ++ c2). split; [apply (spent_less _ _ _ _ _ (spent_app _ _ _ _ _ _ _ S1 S2)); lia|]. intro t. now rewrite <- app_assoc, T1, L, T2.
Qed.
Lemma get_coded_uses tab x : uses (get_coded tab x) 0.
Proof.
  intros s v s'. unfold get_coded. destruct (nth_error tab _) as [[base ex]|]; [|discriminate]. destruct (get_bits _ s) as [[w s1]|] eqn:G; [|discriminate].
  used G get_bits_uses c1 S1 T1. intro E. injection E as <- <-. exists c1. split; [apply (spent_less _ _ _ _ _ S1); lia|]. intro t. now rewrite T1.
Qed.
(** with room for one step per bit, [codes] needs no more fuel *)
Lemma codes_uses lit dist : forall f out s o s', codes f lit dist out s = (o, Some s') ->
  exists c n, spent s s' c n /\ forall t g, (n <= g)%nat -> codes g lit dist out (fst s, c ++ t) = (o, Some (fst s', t)).
Proof.
  induction f as [|f IH]; cbn [codes]; intros out s o s' E; [discriminate|].
  destruct (get_symbol lit 0 0 s) as [[x s1]|] eqn:G; [|discriminate]. used G get_symbol_uses c1 S1 T1.
  destruct (x <? 256) eqn:X1.
  { destruct (IH _ _ _ _ E) as (c2 & n & S2 & T2). exists (c1 ++ c2), (1 + n)%nat. split; [exact (spent_app _ _ _ _ _ _ _ S1 S2)|].
    intros t [|g] L; [lia|]. cbn [codes]. rewrite <- app_assoc, T1, X1. apply T2. lia. }
  destruct (x =? 256) eqn:X2.
  { injection E as <- <-. exists c1, 1%nat. split; [exact S1|]. intros t [|g] L; [lia|]. cbn [codes]. now rewrite T1, X1, X2. }
  destruct (get_coded length_codes (x - 257) s1) as [[n s2]|] eqn:G2; [|discriminate]. used G2 get_coded_uses c2 S2 T2.
  destruct (get_symbol dist 0 0 s2) as [[y s3]|] eqn:G3; [|discriminate]. used G3 get_symbol_uses c3 S3 T3.
  destruct (get_coded distance_codes y s3) as [[d s4]|] eqn:G4; [|discriminate]. used G4 get_coded_uses c4 S4 T4.
  destruct (copy_back _ _ out) as [out2|] eqn:CB; [|discriminate]. destruct (IH _ _ _ _ E) as (c5 & k & S5 & T5).
  exists (c1 ++ (c2 ++ (c3 ++ (c4 ++ c5)))), (1 + k)%nat. split.
  { apply (spent_less _ _ _ _ _ (spent_app _ _ _ _ _ _ _ S1 (spent_app _ _ _ _ _ _ _ S2 (spent_app _ _ _ _ _ _ _ S3 (spent_app _ _ _ _ _ _ _ S4 S5))))). lia. }
  intros t [|g] L; [lia|]. cbn [codes]. rewrite <- !app_assoc, T1, X1, X2, T2, T3, T4, CB. apply T5. lia.
Qed.
Lemma get_lengths3_uses n : uses (get_lengths3 n) 0.
Proof.
  induction n as [|n IH]; cbn [get_lengths3]; intros s v s' E; [injection E as <- <-; exists []; split; [now apply spent_none|reflexivity]|].
  destruct (get_bits 3 s) as [[b s1]|] eqn:B; [|discriminate]. used B get_bits_uses c1 S1 T1.
  destruct (get_lengths3 n s1) as [[w s2]|] eqn:G; [|discriminate]. used G IH c2 S2 T2. injection E as <- <-.
  exists (c1 ++ c2). split; [apply (spent_less _ _ _ _ _ (spent_app _ _ _ _ _ _ _ S1 S2)); lia|]. intro t. now rewrite <- app_assoc, T1, T2.
Qed.
Lemma get_lengths_uses h n : forall f acc, uses (get_lengths f h n acc) 0.
Proof.
  induction f as [|f IH]; cbn [get_lengths]; intros acc s v s' E; [discriminate|].
  destruct (n <=? len acc).
  { destruct (n =? len acc); [|discriminate]. injection E as <- <-. exists []. split; [now apply spent_none|reflexivity]. }
  destruct (get_symbol h 0 0 s) as [[x s1]|] eqn:G; [|discriminate]. used G get_symbol_uses c1 S1 T1.
  assert (A : forall w (b : nat) base, match get_bits b s1 with None => None | Some (k, s) => get_lengths f h n (repeat w (N.to_nat (base + k)) ++ acc) s end = Some (v, s') ->
    exists c, spent s1 s' c 0 /\ forall t, match get_bits b (fst s1, c ++ t) with None => None | Some (k, s) => get_lengths f h n (repeat w (N.to_nat (base + k)) ++ acc) s end = Some (v, (fst s', t))).
  { intros w b base H. destruct (get_bits b s1) as [[k s2]|] eqn:B; [|discriminate]. used B get_bits_uses c2 S2 T2. used H IH c3 S3 T3.
    exists (c2 ++ c3). split; [apply (spent_less _ _ _ _ _ (spent_app _ _ _ _ _ _ _ S2 S3)); lia|]. intro t. now rewrite <- app_assoc, T2, T3. }
  assert (K : forall c, spent s1 s' c 0 -> spent s s' (c1 ++ c) 0) by (intros c S2; apply (spent_less _ _ _ _ _ (spent_app _ _ _ _ _ _ _ S1 S2)); lia).
  destruct (x <? 16) eqn:X.
  { used E IH c2 S2 T2. exists (c1 ++ c2). split; [now apply K|]. intro t. now rewrite <- app_assoc, T1, X, T2. }
  destruct (x =? 16) eqn:X2; [destruct acc; [discriminate|]|destruct (x =? 17) eqn:X3];
    (destruct (A _ _ _ E) as (c2 & S2 & T2); exists (c1 ++ c2); split; [now apply K|]; intro t; rewrite <- app_assoc, T1, X, X2; rewrite ?X3; apply T2).
Qed.
Lemma dynamic_uses s a b s' : dynamic s = Some (a, b, s') -> exists c, spent s s' c 0 /\ forall t, dynamic (fst s, c ++ t) = Some (a, b, (fst s', t)).
Proof.
  unfold dynamic. intro E.
  destruct (get_bits 5 s) as [[v1 s1]|] eqn:B; [|discriminate]. used B get_bits_uses c1 S1 T1. clear B.
  destruct (get_bits 5 s1) as [[v2 s2]|] eqn:B; [|discriminate]. used B get_bits_uses c2 S2 T2. clear B.
  destruct (get_bits 4 s2) as [[v3 s3]|] eqn:B; [|discriminate]. used B get_bits_uses c3 S3 T3. clear B.
  destruct (get_lengths3 _ s3) as [[l s4]|] eqn:B; [|discriminate]. used B get_lengths3_uses c4 S4 T4. clear B.
  destruct (get_lengths 400 _ _ _ s4) as [[l' s5]|] eqn:B; [|discriminate]. used B get_lengths_uses c5 S5 T5.
  injection E as <- <- <-. exists (c1 ++ (c2 ++ (c3 ++ (c4 ++ c5)))). split.
  { apply (spent_less _ _ _ _ _ (spent_app _ _ _ _ _ _ _ S1 (spent_app _ _ _ _ _ _ _ S2 (spent_app _ _ _ _ _ _ _ S3 (spent_app _ _ _ _ _ _ _ S4 S5))))). lia. }
  intro t. now rewrite <- !app_assoc, T1, T2, T3, T4, T5.
Qed.
Lemma stored_uses out r o s' : stored_block out r = (o, Some s') -> fst s' = [] /\ exists c, r = c ++ snd s' /\ forall t, stored_block out (c ++ t) = (o, Some (fst s', t)).
Proof.
  unfold stored_block. destruct r as [|a [|b [|c [|d r]]]]; try discriminate. set (n := b2n a + 256 * b2n b). destruct (_ =? 65535) eqn:X; [|discriminate].
  destruct (n <=? len r) eqn:L; [|discriminate]. intro E. injection E as <- <-. split; [reflexivity|]. cbn [fst snd].
  exists (a :: b :: c :: d :: take n r). cbn [app]. split; [now rewrite take_drop|]. intro t. fold n. rewrite X.
  assert (LT : len (take n r) = n) by (rewrite len_take; lia).
  replace (n <=? len (take n r ++ t)) with true by (rewrite len_app; lia). now rewrite (take_app_exact n _ t LT), (drop_app_exact n _ t LT).
Qed.
Lemma blocks_uses : forall f out s o s', begun s -> blocks f out s = (o, Some s') ->
  exists c n, spent s s' c n /\ forall t g, (n <= g)%nat -> blocks g out (fst s, c ++ t) = (o, Some (fst s', t)).
Proof.
  induction f as [|f IH]; cbn [blocks]; intros out s o s' BG E; [discriminate|].
  destruct (get_bits 1 s) as [[v1 s1]|] eqn:B; [|discriminate]. used B get_bits_uses c1 S1 T1. clear B.
  destruct (get_bits 2 s1) as [[v2 s2]|] eqn:B; [|discriminate]. used B get_bits_uses c2 S2 T2. clear B.
  pose proof (spent_app _ _ _ _ _ _ _ S1 S2) as S12. assert (BG2 : begun s2) by (apply S12, BG).
  assert (EN : forall lit dist o1 q q', begun q -> codes (8 * S (length (snd q))) lit dist out q = (o1, Some q') ->
    exists c, spent q q' c 0 /\ forall t, codes (8 * S (length (c ++ t))) lit dist out (fst q, c ++ t) = (o1, Some (fst q', t))).
  { intros lit dist o1 q q' BQ H. destruct (codes_uses _ _ _ _ _ _ _ H) as (c & n & S & T). exists c. split; [apply (spent_less _ _ _ _ _ S); lia|].
    intro t. apply T. destruct S as (SA & SB & SC). unfold bits, begun in *. rewrite SA, app_length in SB. rewrite app_length. lia. }
  match type of E with (let '(o, x) := ?m in _) = _ => assert (M : forall o1 s3, m = (o1, Some s3) -> exists c, spent s2 s3 c 0 /\ forall t,
    (if v2 =? 0 then stored_block out (c ++ t)
     else if v2 =? 1 then codes (8 * S (length (c ++ t))) fixed_lit fixed_dist out (fst s2, c ++ t)
     else if v2 =? 2 then
       match dynamic (fst s2, c ++ t) with None => (out, None) | Some (lit, dist, s) => codes (8 * S (length (snd s))) lit dist out s end
     else (out, None)) = (o1, Some (fst s3, t))) end.
  { intros o1 s3 H. destruct (v2 =? 0).
    { destruct (stored_uses _ _ _ _ H) as (F & c & D & T). exists c. split; [|exact T]. split; [exact D|]. unfold bits, begun. rewrite F, D, app_length. cbn [length]. lia. }
    destruct (v2 =? 1); [now apply EN|]. destruct (v2 =? 2); [|discriminate].
    destruct (dynamic s2) as [[[a b] s4]|] eqn:D; [|discriminate]. destruct (dynamic_uses _ _ _ _ D) as (c3 & S3 & T3).
    destruct (EN _ _ _ _ _ (proj2 (proj2 S3) BG2) H) as (c4 & S4 & T4). exists (c3 ++ c4). split; [exact (spent_app _ _ _ _ _ 0 0 S3 S4)|].
    intro t. rewrite <- app_assoc, T3. cbn [snd]. apply T4. }
  match type of E with (let '(o, x) := ?m in _) = _ => destruct m as [o1 [s3|]]; [|discriminate] end. destruct (M _ _ eq_refl) as (c3 & S3 & T3).
  pose proof (spent_app _ _ _ _ _ _ _ S12 S3) as S13. destruct (v1 =? 1) eqn:V.
  - injection E as <- <-. exists ((c1 ++ c2) ++ c3), 1%nat. split; [apply (spent_less _ _ _ _ _ S13); lia|]. intros t [|g] L; [lia|].
    cbn [blocks]. rewrite <- !app_assoc, T1, T2. cbn [snd]. now rewrite T3, V.
  - destruct (IH _ _ _ _ (proj2 (proj2 S13) BG) E) as (c4 & n & S4 & T4). exists (((c1 ++ c2) ++ c3) ++ c4), (1 + n)%nat.
    split; [apply (spent_less _ _ _ _ _ (spent_app _ _ _ _ _ _ _ S13 S4)); lia|]. intros t [|g] L; [lia|].
    cbn [blocks]. rewrite <- !app_assoc, T1, T2. cbn [snd]. rewrite T3, V. apply T4. lia.
Qed.
Lemma flate_local : dec_local flate.
Proof.
  intros c w out k _ E. cbn [dec flate] in *. unfold inflate in *. destruct (blocks (8 * S (length w)) [] ([], w)) as [o [[p r]|]] eqn:B; [|discriminate].
  assert (E1 : out = rev o) by congruence. assert (E2 : k = len w - len r) by congruence. clear E. subst out k.
  assert (BG : begun ([], w)) by (unfold begun; cbn; lia). destruct (blocks_uses _ _ _ _ _ BG B) as (x & n & (SA & SB & _) & T). cbn [fst snd] in *.
  split; [lia|]. intro rest. assert (L : len w - len r = len x) by (rewrite SA, len_app; lia). rewrite L, SA. unfold upto.
  replace (firstn (N.to_nat (len x)) (x ++ r)) with x by (rewrite <- take_firstn; symmetry; now apply take_app_exact).
  rewrite T by (unfold bits in SB; cbn [fst snd] in SB; rewrite SA, app_length in SB; rewrite app_length; cbn [length] in *; lia).
  f_equal. f_equal. rewrite len_app. lia.
Qed.
