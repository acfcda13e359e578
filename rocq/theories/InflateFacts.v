(** The DEFLATE codec meets the law asked of codecs. *)
From Verif Require Import Base BaseFacts Headers SpecRead SpecWrite EntryReader Inflate.
Arguments N.add : simpl never.
Arguments N.sub : simpl never.
Arguments N.min : simpl never.
Arguments N.mul : simpl never.

Lemma header_block final n f out r : n <= 65535 -> n <= len r ->
  blocks (S f) out ([], stored_header final n ++ r) =
  if final then (rev (take n r) ++ out, Some ([], drop n r)) else blocks f (rev (take n r) ++ out) ([], drop n r).
Proof.
  intros H L. unfold stored_header. cbn [app to_le blocks].
  assert (B : get_bits 1 ([], n2b (N.b2n final) :: n2b n :: n2b (n / 256) :: n2b (65535 - n) :: n2b ((65535 - n) / 256) :: r) =
    Some (N.b2n final, (repeat false 7, n2b n :: n2b (n / 256) :: n2b (65535 - n) :: n2b ((65535 - n) / 256) :: r))) by now destruct final.
  rewrite B. cbn [get_bits get_bit repeat N.mul N.add N.b2n]. change (2 * (2 * 0 + N.b2n false) + N.b2n false =? 0) with true. cbv iota. cbn [snd].
  unfold stored_block. rewrite !b2n_n2b.
  replace (n mod 256 + 256 * ((n / 256) mod 256)) with n by lia.
  replace ((65535 - n) mod 256 + 256 * (((65535 - n) / 256) mod 256)) with (65535 - n) by lia.
  replace (n + (65535 - n) =? 65535) with true by lia. replace (n <=? len r) with true by lia. now destruct final.
Qed.
Lemma len_stored_header final n : len (stored_header final n) = 5. Proof. reflexivity. Qed.
Lemma flate_blocks st fed out st' : enc_runs flate st fed out st' -> forall f acc rest, (length out <= f)%nat ->
  blocks (S f) acc ([], (out ++ stored_header true 0) ++ rest) = (rev fed ++ acc, Some ([], rest)).
Proof.
  induction 1 as [st|st b n o st1 fed out st2 E _ IH|st o st1 fed out st2 E _ IH]; intros f acc rest L.
  - cbn [app]. rewrite header_block by lia. now rewrite take_firstn, drop_skipn.
  - assert (n = N.min 65535 (len b)) as -> by now injection E. assert (o = stored_header false (N.min 65535 (len b)) ++ take (N.min 65535 (len b)) b) as -> by now injection E. clear E. set (n := N.min 65535 (len b)) in *.
    rewrite <- !app_assoc. rewrite header_block by (rewrite ?len_app, ?len_take; lia).
    rewrite take_app_exact, drop_app_exact by (rewrite len_take; lia).
    destruct f as [|f]; [exfalso; rewrite !app_length in L; cbn in L; lia|].
    rewrite app_assoc. rewrite IH by (rewrite !app_length in L; cbn in L; lia).
    rewrite rev_app_distr, <- app_assoc. now rewrite take_firstn.
  - cbn in E. injection E as <- _. apply IH. exact L.
Qed.
Lemma flate_ok : codec_ok flate.
Proof.
  split.
  - intros st b N. cbn. destruct b; [easy|]. rewrite len_cons. lia.
  - intros c level fed out st rest _ _ R. cbn [dec flate enc_finish]. unfold inflate.
    change (8 * S (length ((out ++ stored_header true 0) ++ rest)))%nat with
      (S (length ((out ++ stored_header true 0) ++ rest) + 7 * S (length ((out ++ stored_header true 0) ++ rest))))%nat.
    rewrite (flate_blocks _ _ _ _ R) by (rewrite !app_length; lia).
    rewrite app_nil_r, rev_involutive. f_equal. f_equal. rewrite len_app. lia.
Qed.
(** a decoder does not consume more than there is *)
Lemma flate_within : dec_within flate.
Proof.
  intros c w out k E. cbn in E. unfold inflate in E. destruct (blocks _ _ _) as [o [[p r]|]]; injection E as <- H; [subst k; lia|discriminate].
Qed.
