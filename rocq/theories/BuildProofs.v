(** Chains of builder calls. *)
From Verif Require Import Base BaseFacts ZString ZDate Headers ExtraField Entry EntryFacts Reader Builders SpecBuild SpecWrite.

Lemma built_says {B} (get : zentry -> B) (says : setter -> option B) :
  (forall e c, get (call_setter e c) = match says c with Some v => v | None => get e end) ->
  forall l e, get (built e l) = last_said says l (get e).
Proof. intros H. unfold built. induction l as [|c l IH]; intro e; [reflexivity|]. cbn [fold_left last_said]. now rewrite IH, H. Qed.
Lemma built_says_wt {B} (get : zentry -> B) (says : setter -> option B) :
  (forall e c, setter_wt c -> get (call_setter e c) = match says c with Some v => v | None => get e end) ->
  forall l e, Forall setter_wt l -> get (built e l) = last_said says l (get e).
Proof.
  intros H. unfold built. induction l as [|c l IH]; intros e F; [reflexivity|]. inversion F; subst. cbn [fold_left last_said]. now rewrite IH, H.
Qed.

Lemma perm_halves e m : m < 65536 -> en_eattr (set_unix_permissions e m) / 65536 = m /\ en_eattr (set_unix_permissions e m) mod 65536 = en_eattr e mod 65536.
Proof.
  intro M. rewrite set_perm_eattr by easy. split; lia.
Qed.

Lemma chain l e : Forall setter_wt l ->
  en_filename (built e l) = last_said says_filename l (en_filename e) /\
  en_compression (built e l) = last_said says_compression l (en_compression e) /\
  en_crc32 (built e l) = last_said says_crc32 l (en_crc32 e) /\
  en_compressed_size (built e l) = last_said says_compressed_size l (en_compressed_size e) /\
  en_uncompressed_size (built e l) = last_said says_uncompressed_size l (en_uncompressed_size e) /\
  en_level (built e l) = last_said says_level l (en_level e) /\
  en_date (built e l) = last_said says_date l (en_date e) /\
  en_iattr (built e l) = last_said says_internal l (en_iattr e) /\
  en_extra (built e l) = last_said says_extra l (en_extra e) /\
  en_comment (built e l) = last_said says_comment l (en_comment e) /\
  en_data_descriptor (built e l) = en_data_descriptor e /\
  en_eattr (built e l) / 65536 = last_said says_mode l (en_eattr e / 65536) /\
  en_eattr (built e l) mod 65536 = last_said says_low l (en_eattr e mod 65536).
Proof.
  intro F.
  repeat match goal with |- _ /\ _ => split end.
  11: { clear F. revert e. unfold built. induction l as [|c l IH]; intro e; [reflexivity|]. cbn [fold_left]. rewrite IH. destruct c; try reflexivity.
        cbn. unfold set_unix_permissions. now destruct (en_attr_compat e). }
  11: { apply (built_says_wt (fun e => en_eattr e / 65536)); [|exact F]. intros e0 [] W; try reflexivity. exact (proj1 (perm_halves e0 mode W)). }
  11: { apply (built_says_wt (fun e => en_eattr e mod 65536)); [|exact F]. intros e0 [] W; try reflexivity. exact (proj2 (perm_halves e0 mode W)). }
  all: apply built_says; intros e0 []; try reflexivity; try (cbn; unfold set_unix_permissions; now destruct (en_attr_compat e0)).
  destruct o; reflexivity.
Qed.

Lemma chain_wt l e : Forall setter_wt l -> entry_wt e -> entry_wt (built e l).
Proof.
  unfold built. intro F. revert e. induction F as [|c l W _ IH]; intros e E; [exact E|]. cbn [fold_left]. apply IH.
  destruct E as (D1 & D2 & D3 & D4 & D5 & D6 & D7). destruct c; cbn in W |- *; unfold entry_wt; cbn; repeat split; try easy.
  all: unfold set_unix_permissions; destruct (en_attr_compat e); cbn; try easy.
  all: pose proof (proj2 (proj2 (perm_roundtrip e mode W))) as Q; unfold set_unix_permissions in Q; destruct (en_attr_compat e); exact Q.
Qed.
