(** Reading the content of one entry. *)
From Verif Require Import Base BaseFacts SpecCrc Crc32 CrcFacts Utf8 Headers Entry IO IOFacts Reader ReaderFacts EntryReader.
Arguments N.add : simpl never.
Arguments N.sub : simpl never.
Arguments N.min : simpl never.
Arguments N.mul : simpl never.

(** What is still to come from a reader, and whether the stream is sound (decoder reaches its end). *)
Definition content (cd : codec) (r : ereader) : bytes * bool :=
  match er_comp r with
  | Stored => (er_window r, true)
  | c => if er_fin r then ([], true)
         else let '(out, fin) := dec cd c (er_window r) in
              (drop (er_out r) out, match fin with Some _ => true | None => false end)
  end.
(** where the source stands once everything was read *)
Definition er_end (cd : codec) (r : ereader) : N :=
  match er_comp r with
  | Stored => s_pos (er_src r) + len (er_window r)
  | c => if er_fin r then s_pos (er_src r)
         else match snd (dec cd c (er_window r)) with Some k => s_pos (er_src r) + k | None => s_pos (er_src r) end
  end.

Definition hashed (h : hasher) (l : bytes) : hasher := hasher_update h l.

(** [steps cd r r' b]: [r'] is [r] after delivering [b] *)
Record steps (cd : codec) (r r' : ereader) (b : bytes) : Prop := {
  st_content : exists k, fst (content cd r) = b ++ k /\ content cd r' = (k, snd (content cd r));
  st_end : snd (content cd r) = true -> er_end cd r' = er_end cd r;
  st_data : s_data (er_src r') = s_data (er_src r);
  st_sched : exists u, s_sched (er_src r) = u ++ s_sched (er_src r');
  st_hash : er_hash r' = hasher_update (er_hash r) b;
  st_comp : er_comp r' = er_comp r }.

Lemma hasher_update_nil h : hasher_update h [] = h. Proof. reflexivity. Qed.

Lemma steps_refl cd r : steps cd r r [].
Proof.
  constructor; try reflexivity; [|now exists []].
  exists (fst (content cd r)). split; [reflexivity|]. now destruct (content cd r).
Qed.
Lemma steps_trans cd r1 r2 r3 a b : steps cd r1 r2 a -> steps cd r2 r3 b -> steps cd r1 r3 (a ++ b).
Proof.
  intros [(k1 & C1 & C1') E1 D1 (u1 & S1) H1 P1] [(k2 & C2 & C2') E2 D2 (u2 & S2) H2 P2].
  rewrite C1' in *. cbn [fst snd] in *. constructor.
  - exists k2. rewrite C1, C2, <- app_assoc. auto.
  - intro T. rewrite E2, E1; auto.
  - congruence.
  - exists (u1 ++ u2). now rewrite S1, S2, app_assoc.
  - rewrite H2, H1. symmetry. apply hasher_update_app.
  - congruence.
Qed.

Lemma len_nil0 {A} (l : list A) : len l = 0 -> l = [].
Proof. destruct l; [reflexivity|rewrite len_cons; lia]. Qed.

Lemma window_advance (d : bytes) p l k : k <= l ->
  take (l - len (take k (drop p d))) (drop (p + len (take k (drop p d))) d) = drop (len (take k (drop p d))) (take l (drop p d)).
Proof.
  intro H. rewrite <- drop_drop. set (x := drop p d). rewrite drop_take. f_equal.
Qed.

(** one poll *)
Definition poll_outcome cd r (p : rpoll) r' : Prop :=
  match p with
  | RPend => steps cd r r' [] /\ s_sched (er_src r) = RPending :: s_sched (er_src r')
  | RGot b => steps cd r r' b /\ (b = [] -> content cd r = ([], true)) /\
      exists u, s_sched (er_src r) = u ++ s_sched (er_src r') /\ nofail u
  | RErr e => steps cd r r' [] /\
      ((e = InvalidData /\ content cd r = ([], false) /\ exists u, s_sched (er_src r) = u ++ s_sched (er_src r') /\ nofail u) \/
       exists c, e = IoOther c /\ s_sched (er_src r) = RFail c :: s_sched (er_src r'))
  end.

Lemma nofail1 e : is_fail e = false -> nofail [e]. Proof. intro H. constructor; [easy|constructor]. Qed.

Lemma stored_got cd r k q :
  er_comp r = Stored -> 0 < er_limit r -> 0 < k -> k <= er_limit r ->
  (exists u, s_sched (er_src r) = u ++ q /\ nofail u) ->
  let b := take k (drop (s_pos (er_src r)) (s_data (er_src r))) in
  poll_outcome cd r (RGot b)
    {| er_src := {| s_data := s_data (er_src r); s_pos := s_pos (er_src r) + len b; s_sched := q |};
       er_limit := er_limit r - len b; er_comp := er_comp r; er_out := er_out r + len b; er_fin := er_fin r;
       er_hash := hasher_update (er_hash r) b |}.
Proof.
  intros Hc Hl Hk Hle (u & Hu & Hn) b. destruct r as [[d p q0] l c o f h]. cbn [er_src er_limit er_comp s_data s_pos s_sched er_out er_fin er_hash] in *.
  subst c q0. unfold poll_outcome.
  assert (Hb : take l (drop p d) = b ++ drop (len b) (take l (drop p d))).
  { unfold b. rewrite <- (take_drop (len (take k (drop p d))) (take l (drop p d))) at 1. f_equal.
    rewrite take_take. rewrite len_take. set (x := drop p d).
    replace (N.min (N.min k (len x)) l) with (N.min k (len x)) by lia.
    destruct (N.le_gt_cases k (len x)).
    - now replace (N.min k (len x)) with k by lia.
    - replace (N.min k (len x)) with (len x) by lia. rewrite !take_all by lia. reflexivity. }
  assert (W : take (l - len b) (drop (p + len b) d) = drop (len b) (take l (drop p d))) by (apply window_advance; lia).
  repeat split.
  - unfold content, er_window. cbn [er_comp er_src er_limit s_data s_pos fst snd].
    exists (drop (len b) (take l (drop p d))). split; [exact Hb|]. now rewrite W.
  - intros _. unfold er_end, er_window. cbn [er_comp er_src er_limit s_data s_pos]. rewrite W.
    rewrite Hb at 2. rewrite len_app. lia.
  - exists u. reflexivity.
  - intro E. unfold content, er_window. cbn [er_comp er_src er_limit s_data s_pos]. f_equal.
    unfold b in E. apply (f_equal len) in E. rewrite len_take in E. change (len (@nil byte)) with 0 in E.
    apply len_nil0. rewrite len_take. lia.
  - exists u. auto.
Qed.

Lemma coded_got cd r k q : 
  er_comp r <> Stored -> er_fin r = false -> 0 < k ->
  (exists u, s_sched (er_src r) = u ++ q /\ nofail u) ->
  let '(out, fin) := dec cd (er_comp r) (er_window r) in
  let b := take k (drop (er_out r) out) in
  let src := er_src r in
  let '(p, r') := if len b =? 0 then
          match fin with
          | Some consumed =>
            (RGot [], {| er_src := with_sched (set_pos src (s_pos src + consumed)) q;
                         er_limit := er_limit r - consumed; er_comp := er_comp r;
                         er_out := er_out r; er_fin := true; er_hash := er_hash r |})
          | None =>
            (RErr InvalidData, {| er_src := with_sched src q; er_limit := er_limit r; er_comp := er_comp r;
                                  er_out := er_out r; er_fin := er_fin r; er_hash := er_hash r |})
          end
        else (RGot b, {| er_src := with_sched src q; er_limit := er_limit r; er_comp := er_comp r;
                         er_out := er_out r + len b; er_fin := er_fin r; er_hash := er_hash r |}) in
  match p with
  | RGot b => poll_outcome cd r (RGot b) (set_hash r' (hasher_update (er_hash r') b))
  | _ => poll_outcome cd r p r'
  end.
Proof.
  intros Hc Hf Hk (u & Hu & Hn). destruct (dec cd (er_comp r) (er_window r)) as [out fin] eqn:E. cbv zeta.
  assert (C : content cd r = (drop (er_out r) out, match fin with Some _ => true | None => false end)).
  { unfold content. destruct (er_comp r); try easy; rewrite Hf, E; reflexivity. }
  assert (EE : er_end cd r = match fin with Some k => s_pos (er_src r) + k | None => s_pos (er_src r) end).
  { unfold er_end. destruct (er_comp r); try easy; rewrite Hf, E; reflexivity. }
  destruct (len (take k (drop (er_out r) out)) =? 0) eqn:L.
  - assert (R : drop (er_out r) out = []).
    { apply len_nil0. apply N.eqb_eq in L. rewrite len_take in L. lia. }
    rewrite R in C. destruct fin as [kk|].
    + split; [|split; [auto|exists u; auto]]. constructor; cbn [er_src er_comp er_fin er_hash set_hash with_sched set_pos s_data s_sched]; auto.
      * rewrite C. exists []. split; [reflexivity|]. unfold content. cbn [er_comp er_fin set_hash]. destruct (er_comp r); easy.
      * intros _. rewrite EE. unfold er_end. cbn [er_comp er_fin set_hash er_src s_pos]. destruct (er_comp r); easy.
      * exists u. exact Hu.
    + split; [|left; split; [easy|]; split; [easy|]; exists u; auto]. constructor; cbn [er_src er_comp er_fin er_hash with_sched s_data s_sched]; auto.
      * rewrite C. exists []. split; [reflexivity|]. cbn [snd]. etransitivity; [|exact C]. reflexivity.
      * exists u. exact Hu.
  - split; [|split; [|exists u; auto]].
    + constructor; cbn [er_src er_comp er_fin er_hash set_hash with_sched s_data s_sched]; auto.
      * rewrite C. set (b := take k (drop (er_out r) out)). exists (drop (len b) (drop (er_out r) out)). cbn [fst snd].
        assert (B : take (len b) (drop (er_out r) out) = b).
        { unfold b at 1. rewrite len_take. set (x := drop (er_out r) out) in *. unfold b.
          destruct (N.le_gt_cases k (len x)).
          - now replace (N.min k (len x)) with k by lia.
          - replace (N.min k (len x)) with (len x) by lia. rewrite !take_all by lia. reflexivity. }
        split. { rewrite <- B at 1. symmetry. apply take_drop. }
        rewrite drop_drop. unfold content, er_window in *. cbn [er_comp er_fin set_hash er_src er_limit er_out s_pos s_data with_sched].
        destruct (er_comp r); try easy; rewrite Hf, E; reflexivity.
      * exists u. exact Hu.
    + intros B. rewrite B in L. discriminate.
Qed.

Lemma same_steps cd r q e : s_sched (er_src r) = e :: q ->
  steps cd r {| er_src := with_sched (er_src r) q; er_limit := er_limit r; er_comp := er_comp r;
                er_out := er_out r; er_fin := er_fin r; er_hash := er_hash r |} [].
Proof.
  intro H. constructor; cbn [er_src er_comp er_hash s_data s_sched with_sched]; auto.
  - exists (fst (content cd r)). split; [reflexivity|]. unfold content, er_window. cbn [er_comp er_fin er_src er_limit er_out s_pos s_data with_sched].
    destruct (er_comp r); cbn [fst snd]; try reflexivity; destruct (er_fin r); try reflexivity; destruct (dec cd _ _); reflexivity.
  - exists [e]. exact H.
Qed.

Lemma poll_spec cd n r : 0 < n -> let '(p, r') := er_poll_read cd n r in poll_outcome cd r p r'.
Proof.
  intro Hn. unfold er_poll_read, inner_poll_read.
  destruct (compression_eqb (er_comp r) Stored) eqn:Ec.
  - assert (Hc : er_comp r = Stored) by (now destruct (er_comp r)). rewrite Hc.
    destruct (er_limit r =? 0) eqn:El.
    { replace (set_hash r (hasher_update (er_hash r) [])) with r by (now destruct r). split; [apply steps_refl|]. split; [|exists []; split; [reflexivity|constructor]].
      intros _. unfold content, er_window. rewrite Hc. apply N.eqb_eq in El. rewrite El. now rewrite take_0. }
    unfold poll_read. destruct (s_sched (er_src r)) as [|[|k|c] q] eqn:Es.
    + pose proof (stored_got cd r (N.min n (er_limit r)) [] Hc ltac:(lia) ltac:(lia) ltac:(lia)) as G.
      specialize (G ltac:(exists []; split; [now rewrite Es|constructor])). rewrite Hc in G. exact G.
    + pose proof (same_steps cd r q _ Es) as T. rewrite Hc in T. destruct r; cbn in *. subst.
      rewrite N.sub_0_r, N.add_0_r. split; [exact T|exact Es].
    + pose proof (stored_got cd r (N.min (N.min n (er_limit r)) (k + 1)) q Hc ltac:(lia) ltac:(lia) ltac:(lia)) as G.
      specialize (G ltac:(exists [RChunk k]; split; [now rewrite Es|now apply nofail1])). rewrite Hc in G. exact G.
    + pose proof (same_steps cd r q _ Es) as T. rewrite Hc in T. destruct r; cbn in *. subst.
      rewrite N.sub_0_r, N.add_0_r. split; [exact T|right]. exists c. auto.
  - assert (Hc : er_comp r <> Stored) by (intro H; rewrite H in Ec; discriminate).
    replace (n =? 0) with false by lia. cbn [orb].
    destruct (er_fin r) eqn:Ef.
    { assert (H : poll_outcome cd r (RGot []) r).
      { split; [apply steps_refl|]. split; [|exists []; split; [reflexivity|constructor]].
        intros _. unfold content. rewrite Ef. now destruct (er_comp r). }
      assert (Hr : set_hash r (hasher_update (er_hash r) []) = r) by (now destruct r).
      destruct (er_comp r); [easy|..]; rewrite Hr; exact H. }
    destruct (s_sched (er_src r)) as [|[|k|c] q] eqn:Es.
    + pose proof (coded_got cd r n [] Hc Ef Hn ltac:(exists []; split; [now rewrite Es|constructor])) as G.
      destruct (er_comp r) eqn:Ecomp; try easy; destruct (dec cd _ (er_window r)) as [out fin]; cbv zeta in *;
      destruct (len (take n (drop (er_out r) out)) =? 0); try destruct fin; rewrite ?Ef in G; exact G.
    + pose proof (same_steps cd r q _ Es) as T. rewrite Ef in T.
      destruct (er_comp r) eqn:Ecomp; try easy; destruct (dec cd _ (er_window r)) as [out fin]; cbv zeta;
      (split; [exact T|exact Es]).
    + pose proof (coded_got cd r (N.min n (k+1)) q Hc Ef ltac:(lia) ltac:(exists [RChunk k]; split; [now rewrite Es|now apply nofail1])) as G.
      destruct (er_comp r) eqn:Ecomp; try easy; destruct (dec cd _ (er_window r)) as [out fin]; cbv zeta in *;
      destruct (len (take (N.min n (k + 1)) (drop (er_out r) out)) =? 0); try destruct fin; rewrite ?Ef in G; exact G.
    + pose proof (same_steps cd r q _ Es) as T. rewrite Ef in T.
      destruct (er_comp r) eqn:Ecomp; try easy; destruct (dec cd _ (er_window r)) as [out fin]; cbv zeta;
      (split; [exact T|right; exists c; auto]).
Qed.

(** ** [read] *)
Definition read_outcome cd r (res : res bytes) r' : Prop :=
  exists u, s_sched (er_src r) = u ++ s_sched (er_src r') /\
  match res with
  | Ok b => steps cd r r' b /\ (b = [] -> content cd r = ([], true)) /\ nofail u
  | Err (UpstreamReadError e) => steps cd r r' [] /\
      ((e = InvalidData /\ content cd r = ([], false) /\ nofail u) \/ exists c pre, e = IoOther c /\ u = pre ++ [RFail c] /\ nofail pre)
  | _ => False
  end.
Lemma steps_content0 cd r r' : steps cd r r' [] -> content cd r' = content cd r.
Proof. intros [(k & H1 & H2) _ _ _ _ _]. rewrite H2. cbn in H1. subst k. now destruct (content cd r). Qed.

Lemma er_read_poll_spec cd n : 0 < n -> forall f r, (length (s_sched (er_src r)) < f)%nat ->
  let '(x, r') := er_read_poll cd f n r in read_outcome cd r x r'.
Proof.
  intro Hn. induction f as [|f IH]; intros r Hf; [lia|]. cbn [er_read_poll].
  pose proof (poll_spec cd n r Hn) as P. destruct (er_poll_read cd n r) as [[|b|e] r1]; cbn [poll_outcome] in P.
  - destruct P as [S E]. specialize (IH r1). rewrite E in Hf. cbn [length] in Hf. specialize (IH ltac:(lia)).
    destruct (er_read_poll cd f n r1) as [x r2]. destruct IH as (u & Hu & H). exists (RPending :: u).
    split; [rewrite E, Hu; reflexivity|]. pose proof (steps_content0 _ _ _ S) as C. destruct x as [b|[]|]; try easy.
    + destruct H as (S2 & H1 & H2). split; [exact (steps_trans _ _ _ _ _ _ S S2)|]. rewrite <- C. split; [easy|]. now constructor.
    + destruct H as (S2 & H). split; [exact (steps_trans _ _ _ _ _ _ S S2)|]. rewrite <- C.
      destruct H as [(H1 & H2 & H3)|(c & pre & H1 & -> & H3)]; [left; repeat split; auto; now constructor|].
      right. exists c, (RPending :: pre). repeat split; auto. now constructor.
  - destruct P as (S & H & u & Hu & Hn'). exists u. auto.
  - destruct P as (S & [(-> & H & u & Hu & Hn')|(c & -> & Hu)]).
    + exists u. split; [easy|]. split; [easy|]. now left.
    + exists [RFail c]. split; [easy|]. split; [easy|]. right. exists c, []. repeat split. constructor.
Qed.
Lemma er_read_spec cd n r : 0 < n -> let '(x, r') := er_read cd n r in read_outcome cd r x r'.
Proof. intro H. apply er_read_poll_spec; [easy|lia]. Qed.

(** ** [read_to_end] *)
Definition end_outcome cd r (res : res bytes) r' : Prop :=
  exists u, s_sched (er_src r) = u ++ s_sched (er_src r') /\
  match res with
  | Ok b => content cd r = (b, true) /\ steps cd r r' b /\ nofail u
  | Err (UpstreamReadError e) =>
      (e = InvalidData /\ snd (content cd r) = false /\ steps cd r r' (fst (content cd r)) /\ nofail u) \/
      exists c pre b, e = IoOther c /\ u = pre ++ [RFail c] /\ nofail pre /\ steps cd r r' b
  | _ => False
  end.
Lemma steps_content cd r r' b : steps cd r r' b -> content cd r = (b ++ fst (content cd r'), snd (content cd r')).
Proof. intros [(k & H1 & H2) _ _ _ _ _]. rewrite H2. cbn [fst snd]. rewrite <- H1. now destruct (content cd r). Qed.

Lemma loop_spec cd : forall f r, (length (fst (content cd r)) < f)%nat ->
  let '(x, r') := er_read_to_end_loop cd f r in end_outcome cd r x r'.
Proof.
  induction f as [|f IH]; intros r Hf; [lia|]. cbn [er_read_to_end_loop]. unfold bind at 1.
  pose proof (er_read_spec cd u64_max r ltac:(reflexivity)) as P. destruct (er_read cd u64_max r) as [x r1].
  destruct P as (u & Hu & P). destruct x as [b|[]|]; try easy.
  - destruct P as (S & H & Hn). pose proof (steps_content _ _ _ _ S) as C. destruct (len b =? 0) eqn:L.
    + apply N.eqb_eq, len_nil0 in L. subst b. exists u. split; [easy|]. split; [now apply H|]. split; [exact S|exact Hn].
    + specialize (IH r1). rewrite C in Hf. cbn [fst] in Hf. rewrite app_length in Hf.
      assert (0 < length b)%nat by (apply N.eqb_neq in L; unfold len in L; lia).
      specialize (IH ltac:(lia)). unfold bind. destruct (er_read_to_end_loop cd f r1) as [y r2].
      destruct IH as (u2 & Hu2 & P). destruct y as [b2|[]|]; try easy.
      * destruct P as (P & S2 & Hn2). exists (u ++ u2). split; [now rewrite Hu, Hu2, app_assoc|]. split; [now rewrite C, P|].
        split; [eapply steps_trans; eauto|]. now apply nofail_app.
      * exists (u ++ u2). split; [now rewrite Hu, Hu2, app_assoc|].
        destruct P as [(-> & P & S2 & Hn2)|(c & pre & b2 & -> & -> & Hp & S2)].
        -- left. split; [easy|]. rewrite C. cbn [fst snd]. split; [easy|]. split; [eapply steps_trans; eauto|]. now apply nofail_app.
        -- right. exists c, (u ++ pre), (b ++ b2). rewrite app_assoc. split; [easy|]. split; [easy|]. split; [now apply nofail_app|eapply steps_trans; eauto].
  - destruct P as (S & P). exists u. split; [easy|]. destruct P as [(-> & C & Hn)|(c & pre & -> & -> & Hp)].
    + left. rewrite C. auto.
    + right. exists c, pre, []. auto.
Qed.

Lemma length_take_le {A} n (l : list A) : (length (take n l) <= length l)%nat.
Proof. pose proof (len_take n l). unfold len in *. lia. Qed.
Lemma length_drop_le {A} n (l : list A) : (length (drop n l) <= length l)%nat.
Proof. pose proof (len_drop n l). unfold len in *. lia. Qed.
Lemma fuel_enough cd r : (length (fst (content cd r)) < er_fuel cd r)%nat.
Proof.
  unfold er_fuel, content. destruct (er_comp r) eqn:E.
  { cbn [fst]. unfold er_window. pose proof (length_take_le (er_limit r) (drop (s_pos (er_src r)) (s_data (er_src r)))).
    pose proof (length_drop_le (s_pos (er_src r)) (s_data (er_src r))). lia. }
  all: destruct (er_fin r); [cbn; lia|]; destruct (dec cd _ _) as [out fin]; cbn [fst];
    pose proof (length_drop_le (er_out r) out); lia.
Qed.
Lemma er_read_to_end_spec cd r : let '(x, r') := er_read_to_end cd r in end_outcome cd r x r'.
Proof. apply loop_spec, fuel_enough. Qed.

Lemma used_nofail u s c pre : nofail (u ++ s) -> u = pre ++ [RFail c] -> False.
Proof. intros N ->. rewrite <- app_assoc in N. apply nofail_app in N as [_ N]. inversion N; subst. discriminate. Qed.

(** without source errors the result is the content *)
Lemma er_read_to_end_nofail cd r : nofail (s_sched (er_src r)) ->
  fst (er_read_to_end cd r) = if snd (content cd r) then Ok (fst (content cd r)) else Err (UpstreamReadError InvalidData).
Proof.
  intro N. pose proof (er_read_to_end_spec cd r) as H. destruct (er_read_to_end cd r) as [x r']. destruct H as (u & Hu & H).
  rewrite Hu in N. destruct x as [b|[]|]; try easy; cbn [fst].
  - destruct H as (H & _). now rewrite H.
  - destruct H as [(-> & H & _)|(c & pre & b & _ & H & _)]; [now rewrite H|]. exfalso. eapply used_nofail; eauto.
Qed.
