(** Lemmas about [Base]. *)
From Verif Require Import Base.
From Coq Require Import ZifyBool ZifyNat ZifyN.
Ltac Zify.zify_post_hook ::= Z.div_mod_to_equations.

Lemma b2n_bound b : b2n b < 256.
Proof. unfold b2n. pose proof (Byte.to_N_bounded b). lia. Qed.

Lemma b2n_n2b n : b2n (n2b n) = n mod 256.
Proof.
  unfold b2n, n2b. destruct (Byte.of_N (n mod 256)) eqn:E.
  - now apply Byte.to_of_N in E.
  - apply Byte.of_N_None_iff in E. lia.
Qed.

Lemma n2b_b2n b : n2b (b2n b) = b.
Proof.
  unfold b2n, n2b. pose proof (Byte.to_N_bounded b).
  rewrite N.mod_small by lia. now rewrite Byte.of_to_N.
Qed.

Lemma b2n_inj a b : b2n a = b2n b -> a = b.
Proof. intro H. now rewrite <- (n2b_b2n a), <- (n2b_b2n b), H. Qed.

Lemma n2b_mod n : n2b (n mod 256) = n2b n.
Proof. unfold n2b. now rewrite N.mod_mod by lia. Qed.

Global Opaque b2n n2b.

Lemma to_le_length k n : length (to_le k n) = k.
Proof. revert n; induction k; cbn; intros; auto. Qed.

Lemma len_to_le k n : len (to_le k n) = N.of_nat k.
Proof. unfold len. now rewrite to_le_length. Qed.

Lemma from_le_bound l : from_le l < 256 ^ len l.
Proof.
  unfold len. induction l as [|b l IH]; [cbn; lia|].
  cbn [from_le length]. rewrite Nat2N.inj_succ, N.pow_succ_r'.
  pose proof (b2n_bound b). nia.
Qed.

Lemma from_to_le k n : from_le (to_le k n) = n mod 256 ^ N.of_nat k.
Proof.
  revert n; induction k; intro n.
  - cbn. now rewrite N.mod_1_r.
  - cbn [to_le from_le]. rewrite b2n_n2b, IHk, Nat2N.inj_succ, N.pow_succ_r'.
    symmetry; apply N.mod_mul_r; [lia | apply N.pow_nonzero; lia].
Qed.

Lemma to_from_le l : to_le (length l) (from_le l) = l.
Proof.
  induction l as [|b l IH]; [reflexivity|].
  cbn [length from_le to_le]. pose proof (b2n_bound b).
  replace ((b2n b + 256 * from_le l) / 256) with (from_le l) by lia.
  rewrite IH. f_equal. rewrite <- n2b_mod.
  replace ((b2n b + 256 * from_le l) mod 256) with (b2n b) by lia. apply n2b_b2n.
Qed.

Lemma to_le_inj k a b : a < 256 ^ N.of_nat k -> b < 256 ^ N.of_nat k -> to_le k a = to_le k b -> a = b.
Proof.
  intros Ha Hb H. apply (f_equal from_le) in H. rewrite !from_to_le in H.
  now rewrite !N.mod_small in H by assumption.
Qed.

Lemma to_le_mod k n : to_le k (n mod 256 ^ N.of_nat k) = to_le k n.
Proof.
  rewrite <- from_to_le. rewrite <- (to_le_length k n) at 1. apply to_from_le.
Qed.

Lemma from_to_le2 n : n < 65536 -> from_le (to_le 2 n) = n.
Proof. intro. rewrite from_to_le. now apply N.mod_small. Qed.
Lemma from_to_le4 n : n < 4294967296 -> from_le (to_le 4 n) = n.
Proof. intro. rewrite from_to_le. now apply N.mod_small. Qed.
Lemma from_to_le8 n : n < 18446744073709551616 -> from_le (to_le 8 n) = n.
Proof. intro. rewrite from_to_le. now apply N.mod_small. Qed.

(** len / take / drop *)
Lemma len_nil {A} : len (@nil A) = 0. Proof. reflexivity. Qed.
Lemma len_cons {A} (x : A) l : len (x :: l) = 1 + len l.
Proof. unfold len. cbn [length]. lia. Qed.
Lemma len_app {A} (a b : list A) : len (a ++ b) = len a + len b.
Proof. unfold len. rewrite app_length. lia. Qed.
Lemma len_0 {A} (l : list A) : len l = 0 -> l = [].
Proof. destruct l; auto. rewrite len_cons. lia. Qed.

Lemma take_firstn {A} n (l : list A) : take n l = firstn (N.to_nat n) l.
Proof.
  revert n; induction l as [|x l IH]; intro n; cbn [take]; [now rewrite firstn_nil|].
  destruct (n =? 0) eqn:E.
  - apply N.eqb_eq in E. now subst.
  - rewrite IH. replace (N.to_nat n) with (S (N.to_nat (N.pred n))) by lia. reflexivity.
Qed.

Lemma drop_skipn {A} n (l : list A) : drop n l = skipn (N.to_nat n) l.
Proof.
  revert n; induction l as [|x l IH]; intro n; cbn [drop]; [now rewrite skipn_nil|].
  destruct (n =? 0) eqn:E.
  - apply N.eqb_eq in E. now subst.
  - rewrite IH. replace (N.to_nat n) with (S (N.to_nat (N.pred n))) by lia. reflexivity.
Qed.

Lemma take_0 {A} (l : list A) : take 0 l = [].
Proof. now rewrite take_firstn. Qed.
Lemma drop_0 {A} (l : list A) : drop 0 l = l.
Proof. now rewrite drop_skipn. Qed.
Lemma take_nil {A} n : take n (@nil A) = []. Proof. reflexivity. Qed.
Lemma drop_nil {A} n : drop n (@nil A) = []. Proof. reflexivity. Qed.

Lemma take_drop {A} n (l : list A) : take n l ++ drop n l = l.
Proof. rewrite take_firstn, drop_skipn. apply firstn_skipn. Qed.

Lemma len_take {A} n (l : list A) : len (take n l) = N.min n (len l).
Proof. rewrite take_firstn. unfold len. rewrite firstn_length. lia. Qed.
Lemma len_drop {A} n (l : list A) : len (drop n l) = len l - n.
Proof. rewrite drop_skipn. unfold len. rewrite skipn_length. lia. Qed.

Lemma take_app {A} n (a b : list A) : take n (a ++ b) = take n a ++ take (n - len a) b.
Proof. rewrite !take_firstn, firstn_app. unfold len. do 2 f_equal. lia. Qed.
Lemma drop_app {A} n (a b : list A) : drop n (a ++ b) = drop n a ++ drop (n - len a) b.
Proof. rewrite !drop_skipn, skipn_app. unfold len. do 2 f_equal. lia. Qed.

Lemma take_all {A} n (l : list A) : len l <= n -> take n l = l.
Proof. unfold len. intro. rewrite take_firstn. apply firstn_all2. lia. Qed.
Lemma drop_all {A} n (l : list A) : len l <= n -> drop n l = [].
Proof. unfold len. intro. rewrite drop_skipn. apply skipn_all2. lia. Qed.

Lemma take_app_exact {A} n (a b : list A) : len a = n -> take n (a ++ b) = a.
Proof. intro. rewrite take_app, take_all by lia. replace (n - len a) with 0 by lia. now rewrite take_0, app_nil_r. Qed.
Lemma drop_app_exact {A} n (a b : list A) : len a = n -> drop n (a ++ b) = b.
Proof. intro. rewrite drop_app, drop_all by lia. replace (n - len a) with 0 by lia. now rewrite drop_0. Qed.

Lemma take_app_le {A} n (a b : list A) : n <= len a -> take n (a ++ b) = take n a.
Proof. intro. rewrite take_app. replace (n - len a) with 0 by lia. now rewrite take_0, app_nil_r. Qed.
Lemma drop_app_le {A} n (a b : list A) : n <= len a -> drop n (a ++ b) = drop n a ++ b.
Proof. intro. rewrite drop_app. replace (n - len a) with 0 by lia. now rewrite drop_0. Qed.
Lemma drop_app_ge {A} n (a b : list A) : len a <= n -> drop n (a ++ b) = drop (n - len a) b.
Proof. intro. now rewrite drop_app, drop_all. Qed.

Lemma skipn_skipn' {A} a b (l : list A) : skipn a (skipn b l) = skipn (b + a) l.
Proof.
  revert b l; induction b; intros l; [reflexivity|].
  destruct l; [now rewrite !skipn_nil|]. cbn [skipn Nat.add]. apply IHb.
Qed.
Lemma drop_drop {A} n m (l : list A) : drop n (drop m l) = drop (m + n) l.
Proof. rewrite !drop_skipn, skipn_skipn'. f_equal. lia. Qed.
Lemma take_take {A} n m (l : list A) : take n (take m l) = take (N.min n m) l.
Proof. rewrite !take_firstn, firstn_firstn. f_equal. lia. Qed.
Lemma take_add {A} n m (l : list A) : take (n + m) l = take n l ++ take m (drop n l).
Proof.
  rewrite <- (take_drop n l) at 1. rewrite take_app, len_take.
  rewrite take_take. replace (N.min (n + m) n) with n by lia. f_equal.
  destruct (N.le_gt_cases n (len l)).
  - do 2 f_equal. lia.
  - now rewrite (drop_all n l) by lia.
Qed.
Lemma drop_take {A} n m (l : list A) : drop n (take m l) = take (m - n) (drop n l).
Proof. rewrite !drop_skipn, !take_firstn, skipn_firstn_comm. f_equal. lia. Qed.
Lemma take_drop_swap {A} n m (l : list A) : take n (drop m l) = drop m (take (m + n) l).
Proof. rewrite drop_take. f_equal. lia. Qed.

Lemma len_slice {A} a b (l : list A) : a <= b -> b <= len l -> len (slice a b l) = b - a.
Proof. intros. unfold slice. rewrite len_take, len_drop. lia. Qed.

Lemma app_inj_len {A} (a b c d : list A) : len a = len c -> a ++ b = c ++ d -> a = c /\ b = d.
Proof.
  intros L E. split.
  - apply (f_equal (take (len a))) in E. now rewrite !take_app_exact in E by lia.
  - apply (f_equal (drop (len a))) in E. now rewrite !drop_app_exact in E by lia.
Qed.

Lemma bytes_eqb_eq a b : bytes_eqb a b = true <-> a = b.
Proof. unfold bytes_eqb. destruct list_eq_dec; split; congruence. Qed.
Lemma bytes_eqb_refl a : bytes_eqb a a = true.
Proof. now apply bytes_eqb_eq. Qed.

(** splitting a list at an index *)
Lemma split_at {A} n (l : list A) : n <= len l -> exists a b, l = a ++ b /\ len a = n.
Proof. intro. exists (take n l), (drop n l). rewrite take_drop, len_take. split; [easy|lia]. Qed.

(** result monad *)
Lemma rbind_ok {A B} (m : res A) (f : A -> res B) b :
  rbind m f = Ok b -> exists a, m = Ok a /\ f a = Ok b.
Proof. destruct m; cbn; intros; try discriminate; eauto. Qed.

(** prefixes *)
Definition prefix {A} (a b : list A) : Prop := exists c, b = a ++ c.
Lemma prefix_refl {A} (a : list A) : prefix a a. Proof. exists []. now rewrite app_nil_r. Qed.
Lemma prefix_trans {A} (a b c : list A) : prefix a b -> prefix b c -> prefix a c.
Proof. intros [x ->] [y ->]. exists (x ++ y). now rewrite app_assoc. Qed.
Lemma prefix_app {A} (a b : list A) : prefix a (a ++ b). Proof. now exists b. Qed.
Lemma prefix_app_l {A} (p a b : list A) : prefix a b -> prefix (p ++ a) (p ++ b).
Proof. intros [c ->]. exists c. now rewrite app_assoc. Qed.
Lemma prefix_take {A} n (a : list A) : prefix (take n a) a.
Proof. exists (drop n a). now rewrite take_drop. Qed.

Lemma Ok_inj {A} (a b : A) : Ok a = Ok b -> a = b.
Proof. congruence. Qed.
(** like [inversion] on [Ok _ = Ok _], without normalising the terms *)
Ltac okinv H := first [discriminate H | apply Ok_inj in H].
