(** Proofs: what a reader that follows APPNOTE by the directory sees of a session. *)
From Verif Require Import Base BaseFacts SpecFormat SpecCrc SpecArchive SpecRead SpecWrite SpecStrict SpecLax SpecAccept SpecRepack SpecInterop ZString ZDate Headers HeadersFacts ExtraField Entry
  IO Reader EntryReader Writer RecordFacts HistFacts CloseFacts RoundTrip StrictProofs AcceptProofs EndProofs LaxProofs.

Lemma item_gives cd x it content : codec_ok cd -> leaves cd (fst x) (snd x) it -> unpack cd (en_compression (i_entry it)) (i_data it) = Some content ->
  op_entry (snd x) = Some (i_entry it) /\ gives cd (snd x) content.
Proof.
  intros K LV U. destruct x as [no64 o]. cbn [fst snd] in *. revert U.
  destruct LV as [e data z off C|e z off|e body z off C|e body off]; cbn [i_entry i_data op_entry gives]; intro U; (split; [reflexivity|]); try exact U.
  - rewrite (compressed_unpacks cd _ _ _ K C) in U. now injection U.
  - rewrite (compressed_unpacks cd _ _ _ K C) in U. now injection U.
Qed.
Lemma item_sound cd x it : codec_ok cd -> leaves cd (fst x) (snd x) it -> told_right cd x ->
  exists content, unpack cd (en_compression (i_entry it)) (i_data it) = Some content /\ len content = i_usize it /\ crc32_spec content = i_crc it.
Proof.
  intros K LV. unfold told_right, told_truly. destruct x as [no64 o]. cbn [fst snd] in *.
  destruct LV as [e data z off C|e z off|e body z off C|e body off]; cbn [i_entry i_data i_usize i_crc]; try easy.
  - intros _. exists data. split; [now apply compressed_unpacks|auto].
  - intros _. exists (fed_bytes body). split; [now apply compressed_unpacks|auto].
Qed.
(** one entry *)
Definition plain_to_see (it : item) : Prop := straight it /\ sizes_clear it /\ (in64 it = true -> off64 it = false -> i_off it <> 0xFFFFFFFF).
Lemma see_written cd x d it a : codec_ok cd -> leaves cd (fst x) (snd x) it -> told_right cd x -> plain_to_see it -> written_in d it a -> member_ok a ->
  exists v, see cd d (listing64 a) = Some v /\ seen_as cd (snd x) v.
Proof.
  intros K LV TR (ST & _ & O) (version & f & lx & LO & before & after & -> & OFF) MO.
  destruct (item_sound cd x it K LV TR) as (content & UN & LU & CR). destruct (item_gives cd x it content K LV UN) as [OE GV].
  assert (P : put_csize it = i_csize it /\ put_usize it = i_usize it).
  { unfold put_csize, put_usize, straight in *. destruct (i_swapped it); [now rewrite ST|auto]. }
  destruct P as [P1 P2].
  exists {| v_listing := listing64 a; v_usize := i_usize it; v_csize := i_csize it; v_offset := i_off it; v_content := content |}. split.
  - unfold see.
    assert (M : measures (listing64 a) = Some (i_usize it, i_csize it, i_off it)).
    { rewrite <- P1, <- P2, <- (lo_usize _ _ _ _ _ LO), <- (lo_csize _ _ _ _ _ LO), <- (lo_offset _ _ _ _ _ LO). apply measures_wide; [exact (conj MO (lo_d64 _ _ _ _ _ LO))|].
      intros Z O64. rewrite (lo_offset _ _ _ _ _ LO). rewrite (lo_o64 _ _ _ _ _ LO) in O64. apply O; [|exact O64]. unfold a_zip64 in Z.
      rewrite (lo_u64 _ _ _ _ _ LO), (lo_c64 _ _ _ _ _ LO), (lo_o64 _ _ _ _ _ LO), (lo_d64 _ _ _ _ _ LO), O64 in Z. now destruct (in64 it). }
    rewrite M, <- OFF, text_app. unfold content_at, local_image. cbv zeta.
    destruct (lo_fits _ _ _ _ _ LO) as (L1 & _ & L2 & _).
    match goal with |- context [nums [26; 2; 2]%nat ?l] => assert (N : exists n, nums [26; 2; 2]%nat l = Some ([n; len (i_name it); len (spec_extras lx)],
      i_name it ++ spec_extras lx ++ i_data it ++ descriptor_image it ++ after)) end.
    { eexists. unfold local_header. rewrite <- !app_assoc.
      match goal with |- nums _ (record [?a; ?b; ?c; ?d; ?e; ?f; ?g; ?h; ?i; ?j; ?k] ++ _) = _ => exact (nums26 [b; c; d; e; f; g; h; i] _ _ _ eq_refl L1 L2) end. }
    destruct N as (n & ->). rewrite <- len_app, (app_assoc (i_name _)), text_app. unfold i_csize at 1. rewrite text_app.
    cbn [listing64 r_method]. rewrite method_of_ok, (lo_method _ _ _ _ _ LO), UN. reflexivity.
  - exists (i_entry it). cbn [v_listing v_content v_usize listing64 r_name r_method r_date r_time r_crc r_comment r_iattr r_eattr].
    rewrite (lo_name _ _ _ _ _ LO), (lo_method _ _ _ _ _ LO), (lo_date _ _ _ _ _ LO), (lo_time _ _ _ _ _ LO), (lo_crc _ _ _ _ _ LO), (lo_comment _ _ _ _ _ LO), (lo_iattr _ _ _ _ _ LO), (lo_eattr _ _ _ _ _ LO), method_of_ok.
    repeat split; try assumption; now symmetry.
Qed.
Lemma see_all_written cd d body xs its ms : codec_ok cd -> (forall it a, written_in body it a -> written_in d it a) ->
  Forall2 (fun x it => leaves cd (fst x) (snd x) it) xs its -> Forall2 (entry_of body) its ms -> Forall (told_right cd) xs -> Forall plain_to_see its ->
  exists vs, see_all cd d (map listing64 ms) = Some vs /\ Forall2 (fun x v => seen_as cd (snd x) v) xs vs.
Proof.
  intros K B F. revert ms. induction F as [|x it xs its LV F IH]; intros ms E TR PS; inversion E as [|? a ? ms' [W MO] E']; subst.
  - exists []. split; [reflexivity|constructor].
  - inversion TR; subst. inversion PS as [|? ? P1 P2]; subst.
    destruct (see_written cd x d it a K LV ltac:(assumption) P1 (B _ _ W) (MO (proj1 (proj2 P1)))) as (v & S1 & S2).
    destruct (IH ms' E' ltac:(assumption) P2) as (vs & S3 & S4). cbn [map see_all]. rewrite S1, S3. exists (v :: vs). split; [reflexivity|now constructor].
Qed.
Lemma sits_body body tail it v f lx : SpecWrite.sits body it v f lx -> SpecWrite.sits (body ++ tail) it v f lx.
Proof. intros (b & a & -> & L). exists b, (a ++ tail). rewrite <- !app_assoc. auto. Qed.
Lemma written_found body it a : written_in body it a -> found_at (le 4 0x04034b50) body (i_off it) /\ i_off it + 30 + i_csize it <= len body.
Proof.
  intros (v & f & lx & _ & b & c & -> & L). split.
  - eexists b, _. split; [|exact L]. unfold local_image, local_header, record. cbn [map concat fst snd]. rewrite <- !app_assoc. reflexivity.
  - unfold local_image. rewrite !len_app. change (len (local_header _ _ _ _ _ _ _ _ _ _)) with 30. unfold i_csize. lia.
Qed.
Lemma found_more sig body tail p : found_at sig body p -> found_at sig (body ++ tail) p.
Proof. intros (a & b & -> & L). exists a, (b ++ tail). rewrite <- !app_assoc. auto. Qed.

Lemma in_right {A B} (R : A -> B -> Prop) xs ys : Forall2 R xs ys -> forall y, In y ys -> exists x, In x xs /\ R x y.
Proof.
  induction 1 as [|x y xs ys H _ IH]; intros z []; [subst; exists x; split; [now left|exact H]|]. destruct (IH z H0) as (x' & I & R'). exists x'. split; [now right|exact R'].
Qed.
Lemma in_left {A B} (R : A -> B -> Prop) xs ys : Forall2 R xs ys -> forall x, In x xs -> exists y, In y ys /\ R x y.
Proof.
  induction 1 as [|x y xs ys H _ IH]; intros z []; [subst; exists y; split; [now left|exact H]|]. destruct (IH z H0) as (x' & I & R'). exists x'. split; [now right|exact R'].
Qed.

Lemma shape_seen cd l xs d z body its ms : codec_ok cd -> shape cd l xs d z body its ms -> len d < 0x10000000000000000 ->
  Forall (fun x => too_many (snd x) = false) xs -> sizes_tell cd d (succeeded false xs) ->
  others_clear z (last_comment l) d -> (z = true \/ len d <= 0xFFFFFFFF) ->
  (len d <= 0xFFFFFFFF \/ ~ found_at (le 4 0x04034b50) d 0xFFFFFFFF) -> Forall (unexchanged cd) (succeeded false xs) -> Forall (told_right cd) (succeeded false xs) ->
  exists vs, sights cd d = Some vs /\ Forall2 (fun x v => seen_as cd (snd x) v) (succeeded false xs) vs.
Proof.
  intros K SHP LB TM SZ EC ZB NF UX TR.
  pose proof (sh_bytes _ _ _ _ _ _ _ _ SHP) as B. pose proof (sh_items _ _ _ _ _ _ _ _ SHP) as SI. pose proof (sh_members _ _ _ _ _ _ _ _ SHP) as SM.
  pose proof (sh_all _ _ _ _ _ _ _ _ SHP TM) as ALL. rewrite (recorded_succeeded xs TM) in SI.
  assert (PS : Forall plain_to_see its).
  { apply Forall_forall. intros it I. destruct (in_right _ _ _ SI it I) as ([no64 o] & IX & LV). cbn [fst snd] in LV.
    destruct (in_left _ _ _ SM it I) as (a & _ & W & _). destruct (written_found body it a W) as [FD LI].
    pose proof (proj1 (Forall_forall _ _) UX _ IX it LV) as ST.
    assert (LE : len body <= len d) by (rewrite B, len_app; lia).
    split; [exact ST|]. split.
    - intros I6 O6. assert (SF : i_stream it = false) by (unfold in64 in I6; unfold off64 in O6; destruct (i_stream it); [congruence|reflexivity]).
      destruct SZ as [L4|SZ]; [|exact (proj1 (Forall_forall _ _) SZ _ IX it LV SF)]. exfalso. unfold off64, is_over in O6. rewrite SF in O6. lia.
    - intros _ _ E. destruct NF as [L4|NF]; [lia|]. apply NF. rewrite <- E, B. now apply found_more. }
  assert (MO : Forall wide_member ms).
  { apply Forall_forall. intros a I. destruct (in_right _ _ _ SM a I) as (it & II & (v & f & lx & LO & _) & M).
    split; [|exact (lo_d64 _ _ _ _ _ LO)]. apply M. exact (proj1 (proj2 (proj1 (Forall_forall _ _) PS it II))). }
  assert (LN : len ms <= len (members ms)).
  { clear. induction ms as [|a ms IH]; [reflexivity|]. unfold members in *. cbn [map concat]. rewrite len_app, len_cons. pose proof (member_record_pos a). unfold len at 2. unfold len in IH |- *. lia. }
  assert (DA : directory_at d = Some (body ++ members ms, (len ms, len (members ms), len body))).
  { rewrite B in EC, LB, ZB |- *. apply directory_seen; [exact LB| |exact EC|].
    - rewrite !len_app in LB. lia.
    - intro Z0. rewrite Z0 in ALL, ZB. destruct ZB as [ZB|ZB]; [discriminate|]. split; [|rewrite !len_app in ZB; split; lia].
      destruct (N.leb_spec (len ms) 0xFFFF) as [Q|Q]; [lia|]. discriminate (ALL Q). }
  unfold sights, SpecAccept.directory. rewrite DA, text_app, listings_wide by (try exact MO; lia).
  apply (see_all_written cd d body _ its ms K); [|exact SI|exact SM|exact TR|exact PS].
  intros it a (v & f & lx & LO & S). exists v, f, lx. split; [exact LO|]. rewrite B. now apply sits_body.
Qed.
Lemma others_see cd sched l : codec_ok cd -> Forall op_good l ->
  let '(xs, r, w) := run_archive cd sched l in
  let d := w_bytes w in
  r = Ok tt -> len d < 0x10000000000000000 -> Forall (fun x => too_many (snd x) = false) xs -> sizes_tell cd d (succeeded false xs) ->
  others_clear (w_zip64 w) (last_comment l) d -> (w_zip64 w = true \/ len d <= 0xFFFFFFFF) ->
  (len d <= 0xFFFFFFFF \/ ~ found_at (le 4 0x04034b50) d 0xFFFFFFFF) -> Forall (unexchanged cd) (succeeded false xs) -> Forall (told_right cd) (succeeded false xs) ->
  exists vs, sights cd d = Some vs /\ Forall2 (fun x v => seen_as cd (snd x) v) (succeeded false xs) vs.
Proof.
  intros K G. pose proof (archive_shape cd sched l (proj1 K) G) as SH. destruct (run_archive cd sched l) as [[xs r] w]. cbv zeta.
  intros R LB TM SZ EC ZB NF UX TR. destruct (SH R LB) as (its & ms & SHP). exact (shape_seen cd _ _ _ _ _ _ _ K SHP LB TM SZ EC ZB NF UX TR).
Qed.
