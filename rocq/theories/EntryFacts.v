(** Entries: permissions and the directory test; soundness of [ZipString]. *)
From Verif Require Import Base BaseFacts Utf8 Utf8Facts SpecUtf8 ZString ZDateFacts Headers ExtraField Entry.

Lemma land_u16 x : N.land x 0xFFFF = x mod 65536.
Proof. change 0xFFFF with (N.ones 16). now rewrite N.land_ones. Qed.

Lemma set_perm_eattr e m : m < 65536 ->
  en_eattr (set_unix_permissions e m) = m * 65536 + en_eattr e mod 65536.
Proof.
  intro H. unfold set_unix_permissions. destruct (en_attr_compat e). cbn [en_eattr set_eattr].
  rewrite land_u16, N.shiftl_mul_pow2, N.lor_comm. apply (lor_disjoint _ _ 16). change (2 ^ 16) with 65536. lia.
Qed.

Lemma perm_roundtrip e m : m < 65536 ->
  entry_unix_permissions (set_unix_permissions e m) = Some m /\
  en_eattr (set_unix_permissions e m) mod 65536 = en_eattr e mod 65536 /\
  en_eattr (set_unix_permissions e m) < 4294967296.
Proof.
  intro H. unfold entry_unix_permissions. destruct (en_attr_compat (set_unix_permissions e m)).
  rewrite N.shiftr_div_pow2, set_perm_eattr by easy. change (2 ^ 16) with 65536. unfold as_u16.
  repeat split; [f_equal; lia|lia|lia].
Qed.

Lemma perm_others e m : set_eattr (set_unix_permissions e m) (en_eattr e) = e.
Proof. unfold set_unix_permissions. destruct (en_attr_compat e). now destruct e. Qed.

(** ** ends_with('/') *)
Lemma rev_concat_last (A : Type) (f : N -> list A) cs c :
  rev (concat (map f (cs ++ [c]))) = rev (f c) ++ rev (concat (map f cs)).
Proof. rewrite map_app, concat_app. cbn [map concat]. rewrite app_nil_r. apply rev_app_distr. Qed.

Lemma encode_last c r : scalar c ->
  exists b t, rev (encode_scalar c) ++ r = b :: t /\ (b2n b = 0x2F <-> c = 0x2F).
Proof.
  intro S. unfold encode_scalar. unfold scalar in S.
  destruct (c <? 0x80) eqn:E1; [|destruct (c <? 0x800) eqn:E2; [|destruct (c <? 0x10000) eqn:E3]];
    cbn [rev app]; eexists; eexists; (split; [reflexivity|]); rewrite b2n_n2b; lia.
Qed.

Lemma ends_with_slash_spec l : is_utf8 l ->
  (ends_with_slash l = true <->
   exists cs, Forall scalar cs /\ l = concat (map encode_scalar (cs ++ [0x2F]))).
Proof.
  intros [cs [F ->]]. unfold ends_with_slash.
  split.
  - destruct cs as [|c0 cs0] using rev_ind; [discriminate|]. clear IHcs0.
    apply Forall_app in F. destruct F as [F Fc]. inversion_clear Fc as [|? ? Sc _].
    rewrite rev_concat_last. destruct (encode_last c0 (rev (concat (map encode_scalar cs0))) Sc) as (b & t & -> & Hb).
    intro H. apply N.eqb_eq in H. apply Hb in H. subst c0. now exists cs0.
  - intros (cs' & F' & ->). rewrite rev_concat_last.
    destruct (encode_last 0x2F (rev (concat (map encode_scalar cs')))) as (b & t & -> & Hb); [left; lia|].
    apply N.eqb_eq. now apply Hb.
Qed.

(** ** ZipString *)
Definition zs_sound (s : zstring) : Prop := zs_enc s = EUtf8 -> is_utf8 (zs_raw s).
Lemma zs_new_sound raw e : zs_sound (zs_new raw e).
Proof.
  unfold zs_sound, zs_new. destruct e; [|discriminate].
  destruct (utf8_valid raw) eqn:E; [|discriminate]. intros _. now apply utf8_valid_iff.
Qed.
