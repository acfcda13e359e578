(** Proofs: what the strict check sees of the entries of a session. *)
From Verif Require Import Base BaseFacts SpecFormat SpecCrc SpecArchive SpecRead SpecWrite SpecStrict SpecAccept SpecRepack ZString ZDate Headers HeadersFacts ExtraField Entry
  IO Reader EntryReader Writer HistFacts CloseFacts RoundTrip StrictProofs AcceptProofs.

Lemma bond_gives cd x q content : codec_ok cd -> bond cd x q -> unpack cd (en_compression (i_entry (p_item q))) (i_data (p_item q)) = Some content ->
  op_entry (snd x) = Some (i_entry (p_item q)) /\ gives cd (snd x) content.
Proof.
  intros K (LV & _) U. destruct x as [no64 o]. cbn [fst snd] in *. revert U.
  destruct LV as [e data z off C|e z off|e body z off C|e body off]; cbn [i_entry i_data op_entry gives]; intro U; (split; [reflexivity|]); try exact U.
  - rewrite (compressed_unpacks cd _ _ _ K C) in U. now injection U.
  - rewrite (compressed_unpacks cd _ _ _ K C) in U. now injection U.
Qed.

Lemma see_piece cd x q before after : codec_ok cd -> bond cd x q -> good_piece cd q -> i_off (p_item q) = len before ->
  exists v, see cd (before ++ p_image q ++ after) (listing_of (p_member q)) = Some v /\ v_listing v = listing_of (p_member q) /\ seen_as cd (snd x) v.
Proof.
  intros K B (LO & IF & CM & LZ & content & UN & LU & CR & CS) OFF.
  destruct (bond_gives cd x q content K B UN) as [OE GV].
  exists {| v_listing := listing_of (p_member q); v_usize := a_usize (p_member q); v_csize := a_csize (p_member q); v_offset := a_offset (p_member q); v_content := content |}.
  split; [|split; [reflexivity|]].
  - unfold see.
    assert (M : measures (listing_of (p_member q)) = Some (a_usize (p_member q), a_csize (p_member q), a_offset (p_member q))).
    { unfold measures, listing_of. cbn [r_extra r_usize r_csize r_offset]. now rewrite no_zip64 by (now apply classic_extras). }
    rewrite M. rewrite (lo_offset _ _ _ _ _ LO), OFF, text_app. unfold content_at, p_image, item_image, local_image. cbv zeta.
    destruct (lo_fits _ _ _ _ _ LO) as (L1 & _ & L2 & _).
    match goal with |- context [nums [26; 2; 2]%nat ?l] => assert (N : exists n, nums [26; 2; 2]%nat l = Some ([n; len (i_name (p_item q)); len (spec_extras (p_local q))],
      i_name (p_item q) ++ spec_extras (p_local q) ++ i_data (p_item q) ++ descriptor_image (p_item q) ++ after)) end.
    { eexists. unfold local_header. rewrite <- !app_assoc.
      match goal with |- nums _ (record [?a; ?b; ?c; ?d; ?e; ?f; ?g; ?h; ?i; ?j; ?k] ++ _) = _ => exact (nums26 [b; c; d; e; f; g; h; i] _ _ _ eq_refl L1 L2) end. }
    destruct N as (n & ->). rewrite <- len_app, (app_assoc (i_name _)), text_app, CS, text_app.
    cbn [listing_of r_method]. rewrite method_of_ok, (lo_method _ _ _ _ _ LO), UN. rewrite <- OFF. reflexivity.
  - exists (i_entry (p_item q)). cbn [v_listing v_content v_usize listing_of r_name r_method r_date r_time r_crc r_comment r_iattr r_eattr].
    rewrite (lo_name _ _ _ _ _ LO), (lo_method _ _ _ _ _ LO), (lo_date _ _ _ _ _ LO), (lo_time _ _ _ _ _ LO), (lo_crc _ _ _ _ _ LO), (lo_comment _ _ _ _ _ LO), (lo_iattr _ _ _ _ _ LO), (lo_eattr _ _ _ _ _ LO), method_of_ok.
    repeat split; try assumption; now symmetry.
Qed.
Lemma see_pieces cd xs qs : codec_ok cd -> Forall2 (bond cd) xs qs -> Forall (good_piece cd) qs -> forall before after, chained (len before) qs ->
  exists vs, see_all cd (before ++ concat (map p_image qs) ++ after) (map listing_of (map p_member qs)) = Some vs /\
    Forall2 (fun x v => seen_as cd (snd x) v) xs vs.
Proof.
  intros K F. induction F as [|x q xs qs B F IH]; intros GP before after CH; [exists []; split; [reflexivity|constructor]|].
  inversion GP as [|? ? G1 G2]; subst. destruct CH as [C1 C2]. cbn [map concat see_all].
  destruct (see_piece cd x q before (concat (map p_image qs) ++ after) K B G1 C1) as (v & E & _ & S).
  rewrite <- len_app in C2. destruct (IH G2 (before ++ p_image q) after C2) as (vs & E2 & F2). rewrite <- !app_assoc in *. rewrite E, E2.
  exists (v :: vs). split; [reflexivity|now constructor].
Qed.
Lemma strict_seen cd sched l : codec_ok cd -> Forall op_good l -> Forall (fun o => dropped o = false) l ->
  let '(xs, r, w) := run_archive cd sched l in
  r = Ok tt -> Forall (fun x => worked (snd x) = true) xs -> len (w_bytes w) <= 0xFFFFFFFF -> end_clear (w_zip64 w) (last_comment l) (w_bytes w) ->
  Forall (soundly cd) (succeeded false xs) ->
  exists vs, sights cd (w_bytes w) = Some vs /\ Forall2 (fun x v => seen_as cd (snd x) v) (succeeded false xs) vs.
Proof.
  intros K G DR. pose proof (strict_pieces cd sched l K G DR) as SP. destruct (run_archive cd sched l) as [[xs r] w].
  intros R WK LB EC CK. destruct (SP R WK LB EC CK) as (qs & tail & E & F & CH & GP & DA). cbv zeta in *.
  unfold sights, SpecAccept.directory. rewrite DA, text_app, (pieces_listed cd) by exact GP. rewrite E, <- app_assoc.
  exact (see_pieces cd _ qs K F GP [] _ CH).
Qed.
