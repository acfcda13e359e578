(** Proofs: this crate's reader and one that follows the specification agree. *)
From Verif Require Import Base BaseFacts SpecFormat SpecCrc SpecUtf8 SpecArchive SpecRead SpecWrite SpecStrict SpecAccept SpecExact SpecThrough SpecAgree ZString ZDate Headers HeadersFacts
  ExtraField Entry IO IOFacts Reader EntryReader StrictProofs AcceptProofs ExactProofs ReadProofs RoundTrip ThroughProofs.

Lemma text_more n l a r t : text n l = Some (a, r) -> text n (l ++ t) = Some (a, r ++ t).
Proof. intro E. apply text_inv in E as [-> <-]. rewrite <- app_assoc. apply text_app. Qed.
Lemma nums_more ks t : forall l vs r, nums ks l = Some (vs, r) -> nums ks (l ++ t) = Some (vs, r ++ t).
Proof.
  induction ks as [|k ks IH]; intros l vs r E; cbn [nums] in *; [now injection E as <- <-|].
  destruct (text (N.of_nat k) l) as [[b m]|] eqn:T; [|discriminate]. rewrite (text_more _ _ _ _ t T).
  destruct (nums ks m) as [[ws q]|] eqn:N; [|discriminate]. injection E as <- <-. now rewrite (IH _ _ _ N).
Qed.
Lemma upto_app a b : upto (len a) (a ++ b) = a.
Proof. rewrite upto_take. now apply take_app_exact. Qed.
Lemma past_app a b : past (len a) (a ++ b) = b.
Proof. rewrite past_drop. now apply drop_app_exact. Qed.

(** ** Records *)
Lemma fields_some n : forall l xs, fields n l = Some xs -> exists ys, some_fields l ys /\ (ys = xs \/ exists id, xs = ys ++ [(id, [])]).
Proof.
  induction n as [|n IH]; intros l xs E.
  - destruct l; [|discriminate]. injection E as <-. exists []. split; [apply sf_end; discriminate|now left].
  - destruct l as [|b l]; [injection E as <-; exists []; split; [apply sf_end; discriminate|now left]|]. cbn [fields] in E.
    remember (b :: l) as m eqn:EM. clear EM b l. destruct (nums [2; 2]%nat m) as [[vs r]|] eqn:N; [|discriminate].
    destruct vs as [|id vs]; [discriminate|]. destruct vs as [|k vs]; [discriminate|]. destruct vs; [|discriminate].
    destruct (text k r) as [[p q]|] eqn:T; [|discriminate]. destruct (fields n q) as [ys|] eqn:F; [|discriminate]. injection E as <-.
    destruct (N.ltb_spec 4 (len m)) as [L|L].
    + destruct (IH _ _ F) as (zs & S & D). exists ((id, p) :: zs). split; [eapply sf_field; eassumption|].
      destruct D as [->|(id' & ->)]; [now left|right; now exists id'].
    + exists []. split; [now apply sf_end|]. right. exists id. pose proof N as N'. apply nums_fs in N' as (_ & -> & _).
      rewrite len_app in L. change (len (record (List.combine [2; 2]%nat [id; k]))) with 4 in L.
      assert (R : r = []) by (destruct r; [reflexivity|rewrite len_cons in L; lia]). subst r. apply text_inv in T as [T _]. symmetry in T. apply app_eq_nil in T as [-> ->].
      destruct n; cbn [fields] in F; injection F as <-; reflexivity.
Qed.
Lemma zip64_last ys id : zip64_of (ys ++ [(id, [])]) = zip64_of ys \/ zip64_of (ys ++ [(id, [])]) = Some [] /\ zip64_of ys = None.
Proof.
  induction ys as [|[i p] ys IH]; cbn [app zip64_of].
  - destruct (id =? 1); [right; now split|now left].
  - destruct (i =? 1); [now left|exact IH].
Qed.
Lemma next8_widen v p w q : widen v p = Some (w, q) -> exists o, next8 (v =? 0xFFFFFFFF) p = (o, q) /\ match o with Some x => x | None => v end = w.
Proof.
  unfold widen, next8. destruct (v =? 0xFFFFFFFF); cbn [andb]; [|intro E; injection E as <- <-; now exists None].
  cbn [nums]. destruct (text (N.of_nat 8) p) as [[b m]|] eqn:T; [|discriminate]. intro E. injection E as <- <-. apply text_inv in T as [-> L].
  change (N.of_nat 8) with 8 in L. rewrite len_app. replace (8 <=? len b + len m) with true by lia. rewrite <- L, upto_app, past_app. now exists (Some (value b)).
Qed.
Lemma next8_nil b : next8 b [] = (None, []).
Proof. unfold next8. now rewrite andb_false_r. Qed.
Lemma widen_nil v w q : widen v [] = Some (w, q) -> w = v /\ q = [].
Proof. unfold widen. destruct (v =? 0xFFFFFFFF); [discriminate|]. intro E. now injection E as <- <-. Qed.

Definition row_of (r : listing) (w : row) : Prop :=
  w_flags w = r_flags r /\ w_method w = r_method r /\ w_time w = r_time r /\ w_date w = r_date r /\ w_crc w = r_crc r /\ w_iattr w = r_iattr r /\
  w_eattr w = r_eattr r /\ w_name w = r_name r /\ w_comment w = r_comment r /\ forall m, measures r = Some m -> placed w = m.
Lemma listing_row l r l' t : read_listing l = Some (r, l') -> exists w, read_row (l ++ t) w (l' ++ t) /\ row_of r w.
Proof.
  unfold read_listing. destruct (nums _ l) as [[vs m]|] eqn:N; [|discriminate].
  destruct vs as [|v1 vs]; [discriminate|]. destruct vs as [|v2 vs]; [discriminate|]. destruct vs as [|v3 vs]; [discriminate|]. destruct vs as [|v4 vs]; [discriminate|].
  destruct vs as [|v5 vs]; [discriminate|]. destruct vs as [|v6 vs]; [discriminate|]. destruct vs as [|v7 vs]; [discriminate|]. destruct vs as [|v8 vs]; [discriminate|].
  destruct vs as [|v9 vs]; [discriminate|]. destruct vs as [|v10 vs]; [discriminate|]. destruct vs as [|v11 vs]; [discriminate|]. destruct vs as [|v12 vs]; [discriminate|].
  destruct vs as [|v13 vs]; [discriminate|]. destruct vs as [|v14 vs]; [discriminate|]. destruct vs as [|v15 vs]; [discriminate|]. destruct vs as [|v16 vs]; [discriminate|].
  destruct vs as [|v17 vs]; [discriminate|]. destruct vs as [|]; [|discriminate].
  destruct (N.eqb_spec v1 0x02014b50) as [->|]; cbn [negb]; [|discriminate].
  destruct (text v11 m) as [[name m1]|] eqn:T; [|discriminate]. apply text_inv in T as [-> TN].
  destruct (text v12 m1) as [[x m2]|] eqn:T; [|discriminate]. apply text_inv in T as [-> TX].
  destruct (text v13 m2) as [[cm m3]|] eqn:T; [|discriminate]. apply text_inv in T as [-> TC].
  destruct (all_fields x) as [xs|] eqn:F; [|discriminate]. intro E. injection E as <- <-.
  destruct (fields_some _ _ _ F) as (ys & S & D). apply (nums_more _ t) in N. rewrite <- !app_assoc in N. subst v11 v12 v13.
  set (m := name ++ x ++ cm ++ m3 ++ t) in *.
  assert (U : upto (len x) (past (len name) m) = x) by (unfold m; now rewrite past_app, upto_app).
  pose proof (row_here _ _ _ _ _ _ _ _ _ _ _ _ _ _ _ _ _ _ ys N ltac:(rewrite U; exact S)) as R.
  unfold m in R. rewrite !past_app, !upto_app in R. eexists. split; [exact R|]. unfold row_of.
  cbn [w_flags w_method w_time w_date w_crc w_iattr w_eattr w_name w_comment w_usize w_csize w_offset r_flags r_method r_time r_date r_crc r_iattr r_eattr r_name r_comment].
  repeat (split; [reflexivity|]). intros [[u k] o] M. unfold measures in M. cbn [r_extra r_usize r_csize r_offset] in M.
  unfold placed. cbn [w_usize w_csize w_offset w_fields].
  assert (Z : zip64_of xs = zip64_of ys \/ zip64_of xs = Some [] /\ zip64_of ys = None).
  { destruct D as [->|(id & ->)]; [now left|apply zip64_last]. }
  destruct Z as [Z|[Z Z']].
  - rewrite Z in M. destruct (zip64_of ys) as [p|].
    + destruct (widen v10 p) as [[u' p1]|] eqn:W1; [|discriminate]. destruct (widen v9 p1) as [[c' p2]|] eqn:W2; [|discriminate].
      destruct (widen v17 p2) as [[o' p3]|] eqn:W3; [|discriminate]. injection M as -> -> ->.
      apply next8_widen in W1 as (o1 & -> & E1). apply next8_widen in W2 as (o2 & -> & E2). apply next8_widen in W3 as (o3 & -> & E3). now rewrite E1, E2, E3.
    + injection M as -> -> ->. now rewrite !next8_nil.
  - rewrite Z' , !next8_nil. rewrite Z in M.
    destruct (widen v10 []) as [[u' p1]|] eqn:W1; [|discriminate]. apply widen_nil in W1 as [-> ->].
    destruct (widen v9 []) as [[c' p2]|] eqn:W2; [|discriminate]. apply widen_nil in W2 as [-> ->].
    destruct (widen v17 []) as [[o' p3]|] eqn:W3; [|discriminate]. apply widen_nil in W3 as [-> ->]. now injection M as -> -> ->.
Qed.
Lemma listings_rows n t : forall l rs, listings n l = Some rs -> exists ws, rows (l ++ t) ws /\ Forall2 row_of rs ws.
Proof.
  induction n as [|n IH]; intros l rs E.
  - destruct l; [|discriminate]. injection E as <-. exists []. split; constructor.
  - destruct l as [|b l]; [injection E as <-; exists []; split; constructor|]. cbn [listings] in E. remember (b :: l) as m eqn:EM. clear EM b l.
    destruct (read_listing m) as [[r m']|] eqn:R; [|discriminate]. destruct (listings n m') as [rs'|] eqn:L; [|discriminate]. injection E as <-.
    destruct (listing_row _ _ _ t R) as (w & R1 & R2). destruct (IH _ _ L) as (ws & S1 & S2). exists (w :: ws). split; [now apply rows_more with (m := m' ++ t)|now constructor].
Qed.
Lemma see_inv cd d r v : see cd d r = Some v -> v_listing v = r /\ measures r = Some (v_usize v, v_csize v, v_offset v) /\
  exists l l', text (v_offset v) d = Some (l, l') /\ content_at cd (r_method r) (v_csize v) l' = Some (v_content v).
Proof.
  unfold see. destruct (measures r) as [[[us cs] off]|]; [|discriminate]. destruct (text off d) as [[l l']|] eqn:T; [|discriminate].
  destruct (content_at cd (r_method r) cs l') as [c|] eqn:C; [|discriminate]. intro E. injection E as <-. cbn. split; [reflexivity|]. split; [reflexivity|]. exists l, l'. now split.
Qed.
Lemma see_all_inv cd d rs : forall vs, see_all cd d rs = Some vs -> Forall2 (fun r v => see cd d r = Some v) rs vs.
Proof.
  induction rs as [|r rs IH]; intros vs E; cbn [see_all] in E; [injection E as <-; constructor|].
  destruct (see cd d r) as [v|] eqn:S; [|discriminate]. destruct (see_all cd d rs) as [vs'|]; [|discriminate]. injection E as <-. constructor; [exact S|now apply IH].
Qed.
Lemma row_agrees cd d r v w e : see cd d r = Some v -> row_of r w -> tells w e -> concurs v e.
Proof.
  intros S (R1 & R2 & R3 & R4 & R5 & R6 & R7 & R8 & R9 & R10) (_ & T1 & T2 & T3 & _ & T4 & T5 & _ & T6 & T7 & T8 & T9 & _).
  apply see_inv in S as (SL & SM & _). rewrite (R10 _ SM) in T5. injection T5 as T5 T5' T5''. unfold concurs. rewrite SL.
  rewrite R8 in T1. rewrite R9 in T2. rewrite R1 in *. rewrite R2 in T3. rewrite R3, R4 in T6. rewrite R5 in T4. rewrite R6 in T7. rewrite R7 in T8.
  split; [exact (reads_as_stored _ _ _ _ _ T1)|]. split.
  { intros FL V. destruct T1 as [_ _|_ NV|pre' t post' F' _ _ _|F' _ _|F' _ _]; try reflexivity; try (rewrite FL in F'; discriminate). now elim NV. }
  split; [exact (reads_as_stored _ _ _ _ _ T2)|]. now repeat split.
Qed.

(** ** The end *)
Lemma same_directory d x front n size off : ends d x -> same_end d -> directory_at d = Some (front, (n, size, off)) -> len d < 0x10000000000000000 ->
  n_count x = n /\ n_offset x = off.
Proof.
  intros X SE DA LD. pose proof (ends_found _ _ X) as O. destruct X as (La & d1' & d2' & n1' & n2' & size' & off' & cl' & rest' & N' & _ & M').
  unfold directory_at in DA. destruct (last_end d) as [[f0 ws]|] eqn:LE; [|discriminate]. pose proof LE as LE'. apply last_end_inv in LE' as (e & ED & RE).
  apply read_end_inv in RE as (d1 & d2 & n1 & n2 & sz & o & cm & -> & -> & B1 & B2 & B3 & B4 & B5 & B6 & B7).
  destruct ((d1 =? 0) && (d2 =? 0) && (n1 =? n2)) eqn:ZD; cbn [negb] in DA; [|discriminate].
  apply andb_true_iff in ZD as [ZD Z3]. apply andb_true_iff in ZD as [Z1 Z2]. apply N.eqb_eq in Z1, Z2, Z3. subst d1 d2 n2.
  destruct (SE _ _ _ _ _ _ _ _ LE) as [CL NL].
  assert (A : n_at x = len f0).
  { apply N.le_antisymm; [exact (CL _ O)|]. apply La. rewrite ED. eexists f0, _. split; [|reflexivity]. unfold end_record, record. cbn [map concat fst snd]. rewrite <- !app_assoc. reflexivity. }
  rewrite A in *.
  assert (N0 : nums [4; 2; 2; 2; 2; 4; 4; 2]%nat (past (len f0) d) = Some ([0x06054b50; 0; 0; n1; n1; sz; o; len cm], cm)).
  { rewrite ED, past_app. eapply nums_at; [reflexivity| |reflexivity|reflexivity]. widths. }
  rewrite N0 in N'. injection N' as <- <- <- <- <- <- <- <-.
  destruct (read_end64 f0) as [[g [[a b] c]]|] eqn:R6.
  - destruct (fits_in 0xFFFF n1 a && fits_in 0xFFFFFFFF sz b && fits_in 0xFFFFFFFF o c) eqn:FI; [|discriminate]. injection DA as -> -> -> ->.
    apply andb_true_iff in FI as [FI F3]. apply andb_true_iff in FI as [F1 F2]. apply fits_chosen in F1, F3.
    apply read_end64_inv in R6 as (mb & nd & EF & C1 & C2 & C3 & C4 & C5).
    assert (L20 : len f0 - 20 = len (front ++ zip64_end 44 mb nd 0 0 n n size off)).
    { rewrite EF, !len_app. change (len (zip64_end 44 mb nd 0 0 n n size off)) with 56. change (len (zip64_end_locator 0 (len front) 1)) with 20. lia. }
    assert (EL : d = (front ++ zip64_end 44 mb nd 0 0 n n size off) ++ zip64_end_locator 0 (len front) 1 ++ end_record 0 0 n1 n1 sz o (len cm) ++ cm) by (rewrite ED, EF, <- !app_assoc; reflexivity).
    assert (LF : len front < 0x10000000000000000) by (rewrite EL, !len_app in LD; lia).
    destruct (n_locator x) as [lo|].
    + destruct M' as (A20 & ldisk & disks & more & zsize & mb' & nd' & z1 & z2 & zn1 & zn2 & zsz & zoff & e64 & NLo & NZ & _ & K2 & -> & ->).
      rewrite L20, EL, past_app in NLo. erewrite nums_at in NLo; [|reflexivity| |reflexivity|reflexivity]; [|widths]. cbn [map snd] in NLo. injection NLo as _ <- _ _.
      assert (L4 : len front + 4 < 0x10000000000000000).
      { rewrite EL, !len_app in LD. change (len (zip64_end 44 mb nd 0 0 n n size off)) with 56 in LD. lia. }
      rewrite N.mod_small in NZ by exact L4.
      assert (EZ : past (len front + 4) d = record [(8%nat, 44); (2%nat, mb); (2%nat, nd); (4%nat, 0); (4%nat, 0); (8%nat, n); (8%nat, n); (8%nat, size); (8%nat, off)] ++
        zip64_end_locator 0 (len front) 1 ++ end_record 0 0 n1 n1 sz o (len cm) ++ cm).
      { replace (len front + 4) with (len (front ++ le 4 0x06064b50)) by (rewrite len_app, len_le; reflexivity).
        replace d with ((front ++ le 4 0x06064b50) ++ record [(8%nat, 44); (2%nat, mb); (2%nat, nd); (4%nat, 0); (4%nat, 0); (8%nat, n); (8%nat, n); (8%nat, size); (8%nat, off)] ++
          zip64_end_locator 0 (len front) 1 ++ end_record 0 0 n1 n1 sz o (len cm) ++ cm); [now rewrite past_app|].
        rewrite EL. unfold zip64_end, record. cbn [map concat fst snd]. rewrite <- !app_assoc. reflexivity. }
      rewrite EZ in NZ. erewrite nums_at in NZ; [|reflexivity| |reflexivity|reflexivity]; [|widths]. cbn [map snd] in NZ. injection NZ as _ _ _ _ _ <- <- _ <- _.
      now rewrite F1, F3.
    + exfalso. destruct M' as (M' & _). apply M'.
      * rewrite EF, !len_app. change (len (zip64_end_locator 0 (len front) 1)) with 20. lia.
      * rewrite L20, EL. eexists _, _. split; [|reflexivity]. unfold zip64_end_locator, record. cbn [map concat fst snd]. rewrite <- !app_assoc. reflexivity.
  - injection DA as -> -> -> ->. destruct (n_locator x) as [lo|]; [|now destruct M' as (_ & _ & _ & -> & ->)].
    destruct M' as (A20 & ldisk & disks & more & zsize & mb' & nd' & z1 & z2 & zn1 & zn2 & zsz & zoff & e64 & NLo & _ & _ & _ & -> & ->).
    destruct (NL eq_refl) as [NL'|[L1 L2]].
    + exfalso. apply (NL' (len front - 20)); [|lia]. rewrite past_drop in NLo. apply nums_step in NLo as (L & S & _). apply signature_at; [reflexivity|]. now split.
    + unfold chosen. replace (n =? 0xFFFF) with false by lia. replace (off =? 0xFFFFFFFF) with false by lia. now split.
Qed.

(** ** Contents *)
Lemma content_inv cd m cs l c : content_at cd m cs l = Some c -> exists h nl xl name z rest k,
  nums [26; 2; 2]%nat l = Some ([h; nl; xl], name ++ z ++ rest) /\ len name = nl + xl /\ len z = cs /\ method_of m = Some k /\ unpack cd k z = Some c.
Proof.
  unfold content_at. destruct (nums _ l) as [[vs r]|] eqn:N; [|discriminate].
  destruct vs as [|h vs]; [discriminate|]. destruct vs as [|nl vs]; [discriminate|]. destruct vs as [|xl vs]; [discriminate|]. destruct vs; [|discriminate].
  destruct (text (nl + xl) r) as [[name r']|] eqn:T; [|discriminate]. apply text_inv in T as [-> T].
  destruct (text cs r') as [[z rest]|] eqn:T'; [|discriminate]. apply text_inv in T' as [-> T']. destruct (method_of m) as [k|]; [|discriminate].
  intro U. exists h, nl, xl, name, z, rest, k. now repeat split.
Qed.
Lemma concur_content cd d r v e : see cd d r = Some v -> concurs v e ->
  checked_content cd d e = if crc32_spec (v_content v) =? en_crc32 (st_entry e) then Ok (v_content v) else Err CRC32CheckError.
Proof.
  intros S (_ & _ & _ & MO & _ & _ & E2 & _ & _ & _ & _ & E3). apply see_inv in S as (<- & _ & pre & l & T & C). apply text_inv in T as [-> LP].
  apply content_inv in C as (h & nl & xl & name & z & rest & k & N & LN & LZ & MK & U). rewrite MO in MK. injection MK as <-.
  apply nums_fs in N as (_ & -> & W). unfold record in *. cbn [List.combine map concat fst snd] in *. rewrite app_nil_r in *.
  apply Forall_inv_tail in W. pose proof (Forall_inv W) as W1. apply Forall_inv_tail in W. pose proof (Forall_inv W) as W2. unfold in_width in W1, W2. cbn [fst snd] in W1, W2.
  assert (DS : data_start (pre ++ (le 26 h ++ le 2 nl ++ le 2 xl) ++ name ++ z ++ rest) (v_offset v) = len (pre ++ (le 26 h ++ le 2 nl ++ le 2 xl) ++ name)).
  { unfold data_start. rewrite <- LP.
    replace (pre ++ (le 26 h ++ le 2 nl ++ le 2 xl) ++ name ++ z ++ rest) with ((pre ++ le 26 h) ++ le 2 nl ++ le 2 xl ++ name ++ z ++ rest) by (now rewrite <- !app_assoc).
    rewrite u16_first; [|exact W1|rewrite len_app, len_le; lia].
    replace ((pre ++ le 26 h) ++ le 2 nl ++ le 2 xl ++ name ++ z ++ rest) with ((pre ++ le 26 h ++ le 2 nl) ++ le 2 xl ++ name ++ z ++ rest) by (now rewrite <- !app_assoc).
    rewrite u16_first; [|exact W2|rewrite !len_app, !len_le; lia]. rewrite !len_app, !len_le. lia. }
  unfold checked_content. rewrite region_take, E3, DS.
  replace (pre ++ (le 26 h ++ le 2 nl ++ le 2 xl) ++ name ++ z ++ rest) with ((pre ++ (le 26 h ++ le 2 nl ++ le 2 xl) ++ name) ++ z ++ rest) by (now rewrite <- !app_assoc).
  rewrite drop_app_exact by reflexivity. rewrite E2, <- LZ, take_app_exact by reflexivity.
  assert (DC : decoded cd (en_compression (st_entry e)) z = (v_content v, true)).
  { unfold unpack in U. unfold decoded. destruct (en_compression (st_entry e)); [now injection U as ->| | | | | |];
      destruct (dec cd _ z) as [o [k|]]; try discriminate; destruct (k =? len z); try discriminate; now injection U as ->. }
  rewrite DC. reflexivity.
Qed.

(** * The two readers *)
Lemma both_agree cfg cd s f vs : fst (file cfg s) = Ok f -> sights cd (s_data s) = Some vs -> same_end (s_data s) -> counted (s_data s) (len vs) ->
  len (s_data s) < 0x10000000000000000 ->
  Forall2 concurs vs (f_entries f) /\
  (nofail (s_sched s) -> forall i v, nth_error vs (N.to_nat i) = Some v -> exists e, nth_error (f_entries f) (N.to_nat i) = Some e /\
     (forall c, read_entry cd f i s = Ok c -> c = v_content v) /\
     (has_local_header (s_data s) e -> crc32_spec (v_content v) = r_crc (v_listing v) -> read_entry cd f i s = Ok (v_content v))).
Proof.
  intros O S SE (front & size & off & DA) LD. set (d := s_data s) in *. destruct (file_reads cfg s f O) as (x & ws & (EN & RW & LW) & RP). fold d in EN, RW.
  destruct (same_directory d x _ _ _ _ EN SE DA LD) as [NC NO]. unfold sights, SpecAccept.directory in S. rewrite DA in S.
  destruct (text off front) as [[body dir]|] eqn:T; [|discriminate]. apply text_inv in T as [-> LB].
  destruct (listings (length dir) dir) as [rs|] eqn:LS; [|discriminate]. destruct (directory_before _ _ _ DA) as (y & E).
  apply see_all_inv in S. destruct (listings_rows _ y _ _ LS) as (ws' & R' & F).
  assert (LV : len vs = len rs) by (unfold len; now rewrite (Forall2_len _ _ _ S)). assert (LR : len rs = len ws') by (unfold len; now rewrite (Forall2_len _ _ _ F)).
  rewrite NO, <- LB, E, <- app_assoc, past_app in RW.
  assert (ws' = ws) by (apply (rows_unique _ _ R' _ RW); lia). subst ws'.
  destruct RP as (TL & _).
  assert (AG : Forall2 (fun v e => (exists r, see cd d r = Some v) /\ concurs v e) vs (f_entries f)).
  { clear - S F TL. revert ws F TL vs S. generalize (f_entries f). induction rs as [|r rs IH]; intros es ws F TL vs S; inversion S; subst; inversion F; subst; inversion TL; subst; constructor.
    - split; [now exists r|]. eapply row_agrees; eassumption.
    - eapply IH; eassumption. }
  split; [clear - AG; induction AG as [|v e vs es [_ C] _ IH]; now constructor|].
  intros NF i v NV. destruct (nth_both' AG _ _ NV) as (e & NE & (r & SR) & CO). exists e. split; [exact NE|].
  pose proof (concur_content cd d r v e SR CO) as CC. rewrite (read_outcome cd f i s NF).
  assert (EA : entry_at f i = Some e) by exact NE. rewrite EA. split.
  - intros c H. unfold outcome in H. fold d in H. destruct (len _ <? 4); [discriminate|]. destruct (negb _); [discriminate|]. destruct (len _ <? 30); [discriminate|].
    destruct (_ <? data_start _ _); [discriminate|]. rewrite CC in H. destruct (_ =? _); [now injection H|discriminate].
  - intros HL CR. pose proof (read_entry_content cd f i s e NF EA HL) as RC. rewrite (read_outcome cd f i s NF), EA in RC. rewrite RC. fold d. rewrite CC.
    destruct CO as (_ & _ & _ & _ & E1 & _). rewrite E1, CR, N.eqb_refl. reflexivity.
Qed.
