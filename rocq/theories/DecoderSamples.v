(** Two decoders that are polled: the one of [EntryReader], and one for the toy scheme that reads byte by byte. *)
From Verif Require Import Base BaseFacts Crc32 SpecRead Headers Entry IO IOFacts Reader EntryReader ReaderPolls SpecReadPolls DecoderPolls SpecDecoder DecoderProofs Samples.
Arguments N.add : simpl never.
Arguments N.sub : simpl never.

Lemma used_none s l q u : s_sched s = u ++ q -> used s l (with_sched s q) l [] u.
Proof. intro E. unfold used, ahead, with_sched. cbn [s_data s_sched s_pos app]. unfold len. cbn [length]. rewrite !N.add_0_r. auto. Qed.
Lemma used_some s l k q u : k <= len (ahead s l) -> s_sched s = u ++ q ->
  used s l (with_sched (set_pos s (s_pos s + k)) q) (l - k) (take k (ahead s l)) u.
Proof.
  intros K E. assert (L : len (take k (ahead s l)) = k) by (rewrite len_take; lia). unfold used. rewrite L. unfold with_sched, set_pos. cbn [s_data s_sched s_pos].
  assert (KL : k <= l) by (revert K; rewrite ahead_take, len_take; lia).
  split; [reflexivity|]. split; [exact E|]. split; [reflexivity|]. split; [lia|]. rewrite <- (take_drop k (ahead s l)) at 1. f_equal.
  rewrite !ahead_take. cbn [s_pos s_data]. now rewrite drop_take, drop_drop.
Qed.
Lemma used_trans s l s1 l1 s2 l2 b1 u1 b2 u2 : used s l s1 l1 b1 u1 -> used s1 l1 s2 l2 b2 u2 -> used s l s2 l2 (b1 ++ b2) (u1 ++ u2).
Proof.
  intros (A1 & A2 & A3 & A4 & A5) (B1 & B2 & B3 & B4 & B5). unfold used. rewrite len_app. split; [congruence|]. split; [now rewrite A2, B2, app_assoc|]. split; [lia|].
  split; [lia|]. now rewrite A5, B5, app_assoc.
Qed.

(** ** [EntryReader]: looks at all that is ahead, and reads it when the output is complete *)
Record peek := { pk_comp : compression; pk_eaten : bytes; pk_given : bytes; pk_fin : bool }.
Definition peeking_poll (cd : codec) (n : N) (g : peek) (s : source) (l : N) : rpoll * peek * source * N :=
  if (n =? 0) || pk_fin g then (RGot [], g, s, l)
  else
    let '(out, fin) := dec cd (pk_comp g) (pk_eaten g ++ ahead s l) in
    let deliver k q :=
      match take k (drop (len (pk_given g)) out) with
      | [] =>
        match fin with
        | Some k => (RGot [], {| pk_comp := pk_comp g; pk_eaten := pk_eaten g ++ take k (ahead s l); pk_given := pk_given g; pk_fin := true |},
                     with_sched (set_pos s (s_pos s + len (take k (ahead s l)))) q, l - len (take k (ahead s l)))
        | None => (RErr InvalidData, g, with_sched s q, l)
        end
      | b => (RGot b, {| pk_comp := pk_comp g; pk_eaten := pk_eaten g; pk_given := pk_given g ++ b; pk_fin := false |}, with_sched s q, l)
      end in
    match s_sched s with
    | [] => deliver n []
    | RPending :: q => (RPend, g, with_sched s q, l)
    | RChunk k :: q => deliver (N.min n (k + 1)) q
    | RFail e :: q => (RErr (IoOther e), g, with_sched s q, l)
    end.
Definition peeking (cd : codec) : decoder :=
  {| dg_state := peek; dg_new c := {| pk_comp := c; pk_eaten := []; pk_given := []; pk_fin := false |}; dg_poll := peeking_poll cd |}.
Definition peek_view (g : peek) := (pk_comp g, pk_eaten g, pk_given g).
Definition peek_inv (cd : codec) (g : peek) (w : bytes) : Prop :=
  let whole := dec cd (pk_comp g) (pk_eaten g ++ w) in
  prefix (pk_given g) (fst whole) /\ if pk_fin g then whole = (pk_given g, Some (len (pk_eaten g))) else pk_eaten g = [].

Lemma peeking_ok cd : dec_within cd -> decoder_ok cd (peeking cd) peek_view (peek_inv cd).
Proof.
  intro DW. split.
  - intros c w. split; [reflexivity|]. split; [|reflexivity]. cbn. now eexists.
  - intros n g s l. cbn [dg_poll peeking]. unfold peeking_poll. destruct ((n =? 0) || pk_fin g) eqn:Z.
    + unfold peek_view. exists [], []. split; [unfold used; cbn; rewrite !N.add_0_r; auto|]. intros (P & F). rewrite !app_nil_r. split; [reflexivity|]. split; [reflexivity|]. cbv zeta.
      split; [unfold len; cbn; lia|]. split; [reflexivity|]. split; [now split|]. split; [exact P|]. intros N0 _. destruct (pk_fin g); [exact F|].
      destruct (N.eqb_spec n 0); [lia|discriminate].
    + destruct (N.eqb_spec n 0) as [|N0]; [discriminate|]. cbn [orb] in Z. destruct (dec cd (pk_comp g) (pk_eaten g ++ ahead s l)) as [out fin] eqn:E.
      assert (G : forall k q u, 0 < k <= n -> s_sched s = u ++ q ->
        let '(p, g', s', l') :=
          match take k (drop (len (pk_given g)) out) with
          | [] =>
            match fin with
            | Some k => (RGot [], {| pk_comp := pk_comp g; pk_eaten := pk_eaten g ++ take k (ahead s l); pk_given := pk_given g; pk_fin := true |},
                         with_sched (set_pos s (s_pos s + len (take k (ahead s l)))) q, l - len (take k (ahead s l)))
            | None => (RErr InvalidData, g, with_sched s q, l)
            end
          | b => (RGot b, {| pk_comp := pk_comp g; pk_eaten := pk_eaten g; pk_given := pk_given g ++ b; pk_fin := false |}, with_sched s q, l)
          end in
        let '(c, eaten, given) := peek_view g in
        let '(c', eaten', given') := peek_view g' in
        exists b u, used s l s' l' b u /\
          (peek_inv cd g (ahead s l) ->
           c' = c /\ eaten' = eaten ++ b /\
           let whole := dec cd c (eaten' ++ ahead s' l') in
           match p with
           | RPend => given' = given /\ peek_inv cd g' (ahead s' l')
           | RGot o => len o <= n /\ given' = given ++ o /\ peek_inv cd g' (ahead s' l') /\ prefix given' (fst whole) /\
               (0 < n -> o = [] -> whole = (given', Some (len eaten')))
           | RErr e => given' = given /\ ((exists k, e = IoOther k /\ In (RFail k) u) /\ peek_inv cd g' (ahead s' l') \/ malformed e /\ snd whole = None)
           end)).
      { intros k q u K Q. destruct (take k (drop (len (pk_given g)) out)) as [|b0 b1] eqn:TK.
        - assert (DN : len (drop (len (pk_given g)) out) = 0).
          { apply (f_equal (@len byte)) in TK. rewrite len_take in TK. change (@len byte []) with 0 in TK. lia. }
          destruct fin as [j|]; unfold peek_view; cbn [pk_comp pk_eaten pk_given].
          + exists (take j (ahead s l)), u. assert (US := used_some s l (len (take j (ahead s l))) q u ltac:(rewrite len_take; lia) Q).
            assert (TT : take (len (take j (ahead s l))) (ahead s l) = take j (ahead s l)).
            { rewrite len_take. destruct (N.leb_spec j (len (ahead s l))); [now replace (N.min j (len (ahead s l))) with j by lia|].
              rewrite (take_all j) by lia. apply take_all. lia. }
            rewrite TT in US. split; [exact US|]. intros (P & F). rewrite Z in F. rewrite F in *. cbn [app] in *. rewrite E in P. cbn [fst] in P. destruct P as (z & ->).
            rewrite drop_app_exact in DN by reflexivity. destruct z as [|? ?]; [|unfold len in DN; cbn [length] in DN; lia]. rewrite app_nil_r in *.
            destruct US as (_ & _ & _ & _ & U5). rewrite <- U5, E. assert (J : len (take j (ahead s l)) = j) by (rewrite len_take; pose proof (DW _ _ _ _ E); lia).
            split; [reflexivity|]. split; [reflexivity|]. cbv zeta. split; [unfold len; cbn; lia|]. split; [reflexivity|]. unfold peek_inv. cbn [pk_comp pk_eaten pk_given pk_fin fst].
            rewrite <- U5, E, J. cbn [fst]. assert (PR : prefix (pk_given g) (pk_given g)) by (exists []; now rewrite app_nil_r).
            split; [now split|]. split; [exact PR|]. intros _ _. reflexivity.
          + exists [], u. split; [now apply used_none|]. intros (P & F). rewrite Z in F. rewrite app_nil_r. split; [reflexivity|]. split; [reflexivity|]. cbv zeta.
            split; [reflexivity|]. right. split; [now left|]. change (ahead (with_sched s q) l) with (ahead s l). now rewrite E.
        - exists [], u. unfold peek_view. cbn [pk_comp pk_eaten pk_given]. split; [now apply used_none|]. intros (P & F). rewrite Z in F. rewrite app_nil_r. split; [reflexivity|].
          split; [reflexivity|]. cbv zeta. change (ahead (with_sched s q) l) with (ahead s l). unfold peek_inv. cbn [pk_comp pk_eaten pk_given pk_fin]. rewrite E in *. cbn [fst] in *.
          destruct P as (z & ->). rewrite drop_app_exact in TK by reflexivity. rewrite <- TK.
          assert (PP : prefix (pk_given g ++ take k z) (pk_given g ++ z)) by (exists (drop k z); rewrite <- app_assoc, take_drop; reflexivity).
          split; [rewrite len_take; lia|]. split; [reflexivity|]. split; [now split|]. split; [exact PP|]. rewrite TK. discriminate. }
      destruct (s_sched s) as [|[|k|k] q] eqn:SQ.
      * now apply (G n [] []); [lia|].
      * unfold peek_view. exists [], [RPending]. split; [now apply used_none|]. intro. rewrite app_nil_r. repeat split; auto; apply H.
      * now apply (G (N.min n (k + 1)) q [RChunk k]); [lia|].
      * unfold peek_view. exists [], [RFail k]. split; [now apply used_none|]. intro. rewrite app_nil_r. split; [reflexivity|]. split; [reflexivity|]. cbv zeta. split; [reflexivity|]. left.
        split; [exists k; cbn; auto|exact H].
Qed.

(** what a reader of [EntryReader] and one through this decoder have in common *)
Definition alike (cd : codec) (r : ereader) (d : dreader (peeking cd)) : Prop :=
  dr_src d = er_src r /\ dr_limit d = er_limit r /\ dr_hash d = er_hash r /\
  match dr_state d with
  | None => er_comp r = Stored
  | Some g => er_comp r <> Stored /\ pk_comp g = er_comp r /\ len (pk_given g) = er_out r /\ pk_fin g = er_fin r /\ (pk_fin g = false -> pk_eaten g = [])
  end.
Lemma alike_new cd s c n : alike cd (er_new s c n) (dr_new (peeking cd) s c n).
Proof. unfold alike, dr_new. destruct c; cbn; repeat split; discriminate. Qed.
Lemma alike_poll cd n r d : dec_within cd -> alike cd r d ->
  fst (er_poll_read cd n r) = fst (dr_poll_read n d) /\ alike cd (snd (er_poll_read cd n r)) (snd (dr_poll_read n d)).
Proof.
  intros DW (S & L & H & ST). unfold er_poll_read, dr_poll_read, inner_poll_read, dr_inner_poll. destruct (dr_state d) as [g|] eqn:DS.
  - destruct ST as (NS & CO & OU & FI & EA). cbn [dg_poll peeking]. unfold peeking_poll.
    assert (W : er_window r = ahead (dr_src d) (dr_limit d)) by (unfold er_window; rewrite ahead_take; congruence).
    assert (B : forall cc, cc = er_comp r ->
      let x := if (n =? 0) || er_fin r then (RGot [], r)
      else
      let '(out, fin) := dec cd cc (er_window r) in
      let rest := drop (er_out r) out in
      let src := er_src r in
      let deliver k q :=
        let b := take k rest in
        if len b =? 0 then
          match fin with
          | Some consumed =>
            (RGot [], {| er_src := with_sched (set_pos src (s_pos src + consumed)) q;
                         er_limit := er_limit r - consumed; er_comp := er_comp r;
                         er_out := er_out r; er_fin := true; er_hash := er_hash r |})
          | None =>
            (RErr InvalidData, {| er_src := with_sched src q; er_limit := er_limit r; er_comp := er_comp r;
                                  er_out := er_out r; er_fin := er_fin r; er_hash := er_hash r |})
          end
        else (RGot b, {| er_src := with_sched src q; er_limit := er_limit r; er_comp := er_comp r;
                         er_out := er_out r + len b; er_fin := er_fin r; er_hash := er_hash r |}) in
      let same q := {| er_src := with_sched src q; er_limit := er_limit r; er_comp := er_comp r;
                       er_out := er_out r; er_fin := er_fin r; er_hash := er_hash r |} in
      match s_sched src with
      | [] => deliver n []
      | RPending :: q => (RPend, same q)
      | RChunk k :: q => deliver (N.min n (k + 1)) q
      | RFail e :: q => (RErr (IoOther e), same q)
      end in
      let y := let '(p, g, s, l) := peeking_poll cd n g (dr_src d) (dr_limit d) in
               (p, Build_dreader (peeking cd) s l (Some g) (dr_hash d)) in
      fst x = fst y /\ alike cd (snd x) (snd y)).
    { intros cc ->. cbv zeta. unfold peeking_poll. rewrite FI. destruct ((n =? 0) || er_fin r) eqn:Z.
      - cbn [fst snd]. split; [reflexivity|]. unfold alike. cbn [dr_src dr_limit dr_hash dr_state]. repeat split; auto.
      - assert (FF : er_fin r = false) by (destruct (n =? 0); [discriminate|exact Z]). rewrite (EA (eq_trans FI FF)), CO, W, OU, S, L. cbn [app].
        destruct (dec cd (er_comp r) (ahead (er_src r) (er_limit r))) as [out fin] eqn:E.
        assert (G : forall k q,
          let x := if len (take k (drop (er_out r) out)) =? 0 then
             match fin with
             | Some consumed =>
               (RGot [], {| er_src := with_sched (set_pos (er_src r) (s_pos (er_src r) + consumed)) q; er_limit := er_limit r - consumed; er_comp := er_comp r;
                            er_out := er_out r; er_fin := true; er_hash := er_hash r |})
             | None =>
               (RErr InvalidData, {| er_src := with_sched (er_src r) q; er_limit := er_limit r; er_comp := er_comp r; er_out := er_out r; er_fin := er_fin r; er_hash := er_hash r |})
             end
           else (RGot (take k (drop (er_out r) out)), {| er_src := with_sched (er_src r) q; er_limit := er_limit r; er_comp := er_comp r;
                            er_out := er_out r + len (take k (drop (er_out r) out)); er_fin := er_fin r; er_hash := er_hash r |}) in
          let y := let '(p, g, s, l) :=
             match take k (drop (er_out r) out) with
             | [] => match fin with
                     | Some k => (RGot [], {| pk_comp := er_comp r; pk_eaten := take k (ahead (er_src r) (er_limit r)); pk_given := pk_given g; pk_fin := true |},
                         with_sched (set_pos (er_src r) (s_pos (er_src r) + len (take k (ahead (er_src r) (er_limit r))))) q, er_limit r - len (take k (ahead (er_src r) (er_limit r))))
                     | None => (RErr InvalidData, g, with_sched (er_src r) q, er_limit r)
                     end
             | b => (RGot b, {| pk_comp := er_comp r; pk_eaten := []; pk_given := pk_given g ++ b; pk_fin := false |}, with_sched (er_src r) q, er_limit r)
             end in (p, Build_dreader (peeking cd) s l (Some g) (dr_hash d)) in
          fst x = fst y /\ alike cd (snd x) (snd y)).
        { intros k q. cbv zeta. destruct (take k (drop (er_out r) out)) as [|b0 b1] eqn:TK.
          - change (len [] =? 0) with true. cbv iota. destruct fin as [j|]; cbn [fst snd]; (split; [reflexivity|]); unfold alike; cbn [dr_src dr_limit dr_hash dr_state er_src er_limit er_hash er_comp er_out er_fin pk_comp pk_given pk_fin pk_eaten].
            + assert (J : len (take j (ahead (er_src r) (er_limit r))) = j) by (rewrite len_take; pose proof (DW _ _ _ _ E); lia). rewrite J. repeat split; auto. discriminate.
            + repeat split; auto.
          - destruct (N.eqb_spec (len (b0 :: b1)) 0) as [X|X]; [unfold len in X; cbn [length] in X; lia|]. cbn [fst snd]. split; [reflexivity|].
            unfold alike; cbn [dr_src dr_limit dr_hash dr_state er_src er_limit er_hash er_comp er_out er_fin pk_comp pk_given pk_fin pk_eaten]. repeat split; auto. rewrite len_app. lia. }
        destruct (s_sched (er_src r)) as [|[|k|k] q].
        + apply G.
        + cbn [fst snd]. split; [reflexivity|]. unfold alike. cbn [dr_src dr_limit dr_hash dr_state er_src er_limit er_hash er_comp er_out er_fin]. repeat split; auto.
        + apply G.
        + cbn [fst snd]. split; [reflexivity|]. unfold alike. cbn [dr_src dr_limit dr_hash dr_state er_src er_limit er_hash er_comp er_out er_fin]. repeat split; auto. }
    specialize (B _ eq_refl). cbv zeta in B. cbv zeta.
    assert (FIN : forall (x : rpoll * ereader) (y : rpoll * dreader (peeking cd)), fst x = fst y /\ alike cd (snd x) (snd y) ->
      let x' := match x with (RGot b, r') => (RGot b, set_hash r' (hasher_update (er_hash r') b)) | (p, r') => (p, r') end in
      let y' := match y with (RGot b, r') => (RGot b, {| dr_src := dr_src r'; dr_limit := dr_limit r'; dr_state := dr_state r'; dr_hash := hasher_update (dr_hash r') b |}) | (p, r') => (p, r') end in
      fst x' = fst y' /\ alike cd (snd x') (snd y')).
    { intros [p x] [p' y]. cbn [fst snd]. intros (-> & A). destruct p'; cbn [fst snd]; (split; [reflexivity|]); try exact A.
      destruct A as (A1 & A2 & A3 & A4). unfold alike, set_hash. cbn [dr_src dr_limit dr_hash dr_state er_src er_limit er_hash er_comp er_out er_fin]. rewrite A3. auto. }
    destruct (er_comp r) eqn:EC; [contradiction|..]; exact (FIN _ _ B).
  - rewrite ST, S, L. destruct (er_limit r =? 0).
    + cbn [fst snd]. split; [reflexivity|]. unfold alike, set_hash. cbn [dr_src dr_limit dr_hash dr_state er_src er_limit er_hash er_comp]. rewrite DS, H. auto.
    + destruct (poll_read (N.min n (er_limit r)) (er_src r)) as [[|b|e] s]; cbn [fst snd]; (split; [reflexivity|]); unfold alike, set_hash; cbn [dr_src dr_limit dr_hash dr_state er_src er_limit er_hash er_comp];
        rewrite ?H; auto.
Qed.
Lemma alike_polls cd l : dec_within cd -> forall r d, alike cd r d -> fst (er_polls cd l r) = fst (dr_polls l d) /\ alike cd (snd (er_polls cd l r)) (snd (dr_polls l d)).
Proof.
  intro DW. induction l as [|c l IH]; intros r d A; [now split|]. cbn [er_polls dr_polls].
  assert (P : fst (er_poll cd c r) = fst (dr_poll c d) /\ alike cd (snd (er_poll cd c r)) (snd (dr_poll c d))) by (destruct c; apply alike_poll; assumption).
  destruct (er_poll cd c r) as [p r1], (dr_poll c d) as [p' d1]. cbn [fst snd] in P. destruct P as (-> & A1). specialize (IH r1 d1 A1).
  destruct (er_polls cd l r1) as [ps r2], (dr_polls l d1) as [ps' d2]. cbn [fst snd] in *. destruct IH as (-> & A2). now split.
Qed.
Lemma peeking_same cd l s c n : dec_within cd ->
  fst (dr_polls l (dr_new (peeking cd) s c n)) = fst (er_polls cd l (er_new s c n)) /\
  dr_src (snd (dr_polls l (dr_new (peeking cd) s c n))) = er_src (snd (er_polls cd l (er_new s c n))).
Proof. intro DW. destruct (alike_polls cd l DW _ _ (alike_new cd s c n)) as (E & A). split; [auto|apply A]. Qed.

(** ** The toy scheme, byte by byte: up to two polls of the source in one *)
Inductive phase := Fresh | Half | Done.
Record bite := { bt_comp : compression; bt_eaten : bytes; bt_given : bytes; bt_phase : phase }.
Definition bite1 (s : source) (l : N) : rpoll * source * N :=
  if l =? 0 then (RGot [], s, l)
  else let '(p, s') := poll_read 1 s in (p, s', match p with RGot b => l - len b | _ => l end).
Definition ate (g : bite) (b : byte) (o : bytes) (ph : phase) : bite :=
  {| bt_comp := bt_comp g; bt_eaten := bt_eaten g ++ [b]; bt_given := bt_given g ++ o; bt_phase := ph |}.
Definition bite_half (g : bite) (s : source) (l : N) : rpoll * bite * source * N :=
  match bite1 s l with
  | (RGot [b], s, l) => (RGot [b], ate g b [b] Fresh, s, l)
  | (RGot _, s, l) => (RErr UnexpectedEof, g, s, l)
  | (p, s, l) => (p, g, s, l)
  end.
Definition bite_fresh (g : bite) (s : source) (l : N) : rpoll * bite * source * N :=
  match bite1 s l with
  | (RGot [x00], s, l) => (RGot [], ate g x00 [] Done, s, l)
  | (RGot [x01], s, l) => bite_half (ate g x01 [] Half) s l
  | (RGot [b], s, l) => (RErr InvalidData, ate g b [] Fresh, s, l)
  | (RGot _, s, l) => (RErr UnexpectedEof, g, s, l)
  | (p, s, l) => (p, g, s, l)
  end.
Definition biting : decoder :=
  {| dg_state := bite; dg_new c := {| bt_comp := c; bt_eaten := []; bt_given := []; bt_phase := Fresh |};
     dg_poll n g s l := if n =? 0 then (RGot [], g, s, l)
       else match bt_phase g with Fresh => bite_fresh g s l | Half => bite_half g s l | Done => (RGot [], g, s, l) end |}.
Definition bite_view (g : bite) := (bt_comp g, bt_eaten g, bt_given g).
Definition bite_inv (g : bite) (w : bytes) : Prop :=
  bt_eaten g = flat_map (fun b => [x01; b]) (bt_given g) ++ match bt_phase g with Fresh => [] | Half => [x01] | Done => [x00] end.

Lemma toy_dec_app given w : toy_dec (flat_map (fun b => [x01; b]) given ++ w) =
  (given ++ fst (toy_dec w), match snd (toy_dec w) with Some k => Some (k + len (flat_map (fun b => [x01; b]) given)) | None => None end).
Proof.
  induction given as [|x given IH]; cbn [flat_map app toy_dec]; [destruct (toy_dec w) as [? [k|]]; cbn [fst snd]; [change (@len byte []) with 0; now rewrite N.add_0_r|reflexivity]|].
  rewrite IH. f_equal. destruct (snd (toy_dec w)) as [k|]; [|reflexivity]. f_equal. unfold len. cbn [length]. lia.
Qed.
Lemma inv_prefix g w : bite_inv g w -> prefix (bt_given g) (fst (toy_dec (bt_eaten g ++ w))).
Proof. intros ->. rewrite <- app_assoc, toy_dec_app. cbn [fst]. now eexists. Qed.
Lemma bite1_spec s l : let '(p, s', l') := bite1 s l in exists u,
  match p with
  | RPend => used s l s' l' [] u
  | RGot b => used s l s' l' b u /\ (b = [] /\ ahead s l = [] \/ exists x, b = [x])
  | RErr e => used s l s' l' [] u /\ exists k, e = IoOther k /\ In (RFail k) u
  end.
Proof.
  assert (U0 : forall s l, used s l s l [] []) by (intros; unfold used; cbn; rewrite !N.add_0_r; auto).
  unfold bite1. destruct (N.eqb_spec l 0) as [->|L].
  - exists []. split; [apply U0|]. now left.
  - assert (G : forall q u, s_sched s = u ++ q ->
      let b := take 1 (drop (s_pos s) (s_data s)) in used s l {| s_data := s_data s; s_pos := s_pos s + len b; s_sched := q |} (l - len b) b u /\ (b = [] /\ ahead s l = [] \/ exists x, b = [x])).
    { intros q u Q. cbv zeta. assert (A1 : take 1 (drop (s_pos s) (s_data s)) = take 1 (ahead s l)) by (rewrite ahead_take, take_take; now replace (N.min 1 l) with 1 by lia).
      rewrite A1. assert (K : len (take 1 (ahead s l)) <= len (ahead s l)) by (rewrite len_take; lia). pose proof (used_some s l _ q u K Q) as US.
      destruct (ahead s l) as [|x w] eqn:A.
      - split; [|now left]. exact US.
      - assert (T1 : take 1 (x :: w) = [x]) by (rewrite take_firstn; reflexivity). rewrite T1 in *. change (len [x]) with 1 in *. rewrite T1 in US.
        split; [exact US|right; now exists x]. }
    unfold poll_read. destruct (s_sched s) as [|[|k|k] q] eqn:SQ.
    + exists []. now apply G.
    + exists [RPending]. pose proof (used_none s l q [RPending] SQ) as US. exact US.
    + exists [RChunk k]. replace (N.min 1 (k + 1)) with 1 by lia. now apply G.
    + exists [RFail k]. pose proof (used_none s l q [RFail k] SQ) as US. split; [exact US|]. exists k. cbn. auto.
Qed.

Lemma bite_half_ok g s l : bt_phase g = Half -> let '(p, g', s', l') := bite_half g s l in
  exists b u, used s l s' l' b u /\
    (bite_inv g (ahead s l) ->
     bt_comp g' = bt_comp g /\ bt_eaten g' = bt_eaten g ++ b /\
     let whole := toy_dec (bt_eaten g' ++ ahead s' l') in
     match p with
     | RPend => bt_given g' = bt_given g /\ bite_inv g' (ahead s' l')
     | RGot o => len o = 1 /\ bt_given g' = bt_given g ++ o /\ bite_inv g' (ahead s' l') /\ prefix (bt_given g') (fst whole)
     | RErr e => bt_given g' = bt_given g /\ ((exists k, e = IoOther k /\ In (RFail k) u) /\ bite_inv g' (ahead s' l') \/ malformed e /\ snd whole = None)
     end).
Proof.
  intro PH. unfold bite_half. pose proof (bite1_spec s l) as B. destruct (bite1 s l) as [[[|o|e] s'] l']; destruct B as (u & B).
  - exists [], u. split; [exact B|]. intro I. rewrite app_nil_r. auto.
  - destruct B as (US & [(-> & A)|(x & ->)]).
    + exists [], u. split; [exact US|]. intro I. rewrite app_nil_r. split; [reflexivity|]. split; [reflexivity|]. cbv zeta. split; [reflexivity|]. right. split; [now right|].
      destruct US as (_ & _ & _ & _ & U5). rewrite A in U5. symmetry in U5. cbn [app] in U5. rewrite U5, app_nil_r. unfold bite_inv in I. rewrite PH in I. rewrite I, toy_dec_app. reflexivity.
    + exists [x], u. split; [exact US|]. intro I. unfold ate. cbn [bt_comp bt_eaten bt_given]. split; [reflexivity|]. split; [reflexivity|]. cbv zeta. split; [reflexivity|]. split; [reflexivity|].
      unfold bite_inv in *. rewrite PH in I. cbn [bt_comp bt_eaten bt_given bt_phase]. 
      assert (Q : bt_eaten g ++ [x] = flat_map (fun b => [x01; b]) (bt_given g ++ [x]) ++ []) by (rewrite I, flat_map_app, app_nil_r, <- app_assoc; reflexivity).
      split; [exact Q|]. rewrite Q, <- app_assoc, toy_dec_app. now eexists.
  - destruct B as (US & k & -> & K). exists [], u. split; [exact US|]. intro I. rewrite app_nil_r. split; [reflexivity|]. split; [reflexivity|]. cbv zeta. split; [reflexivity|].
    left. split; [now exists k|exact I].
Qed.
Lemma biting_ok : decoder_ok toy biting bite_view bite_inv.
Proof.
  split.
  - intros c w. split; reflexivity.
  - intros n g s l. cbn [dg_poll biting]. unfold bite_view. cbn [toy dec].
    assert (U0 : used s l s l [] []) by (unfold used; cbn; rewrite !N.add_0_r; auto).
    destruct (N.eqb_spec n 0) as [->|N0].
    + exists [], []. split; [exact U0|]. intro I. rewrite !app_nil_r. cbv zeta. repeat split; [unfold len; cbn; lia|exact I|now apply inv_prefix|lia].
    + destruct (bt_phase g) eqn:PH.
      * unfold bite_fresh. pose proof (bite1_spec s l) as B. destruct (bite1 s l) as [[[|o|e] s1] l1]; destruct B as (u & B).
        -- exists [], u. split; [exact B|]. intro I. rewrite app_nil_r. auto.
        -- destruct B as (US & [(-> & A)|(x & ->)]).
           ++ exists [], u. split; [exact US|]. intro I. rewrite app_nil_r. split; [reflexivity|]. split; [reflexivity|]. cbv zeta. split; [reflexivity|]. right. split; [now right|].
              destruct US as (_ & _ & _ & _ & U5). rewrite A in U5. symmetry in U5. cbn [app] in U5. rewrite U5, app_nil_r. unfold bite_inv in I. rewrite PH in I. rewrite I, toy_dec_app. reflexivity.
           ++ assert (BAD : x <> x00 -> x <> x01 -> exists b u0, used s l s1 l1 b u0 /\ (bite_inv g (ahead s l) -> bt_comp g = bt_comp g /\ bt_eaten g ++ [x] = bt_eaten g ++ b /\
                 (bt_given g ++ [] = bt_given g /\ ((exists k, InvalidData = IoOther k /\ In (RFail k) u0) /\ bite_inv (ate g x [] Fresh) (ahead s1 l1) \/
                   malformed InvalidData /\ snd (toy_dec ((bt_eaten g ++ [x]) ++ ahead s1 l1)) = None)))).
              { intros X0 X1. exists [x], u. split; [exact US|]. intro I. split; [reflexivity|]. split; [reflexivity|]. split; [apply app_nil_r|]. right. split; [now left|].
                unfold bite_inv in I. rewrite PH in I. rewrite I, app_nil_r, <- app_assoc, toy_dec_app. cbn [snd app].
                replace (toy_dec (x :: ahead s1 l1)) with (@nil byte, @None N); [reflexivity|]. destruct x; try reflexivity; contradiction. }
              destruct x; try (apply BAD; discriminate).
              ** exists [x00], u. split; [exact US|]. intro I. unfold ate. cbn [bt_comp bt_eaten bt_given]. split; [reflexivity|]. split; [reflexivity|]. cbv zeta.
                 split; [unfold len; cbn; lia|]. split; [reflexivity|]. unfold bite_inv in *. rewrite PH in I. cbn [bt_comp bt_eaten bt_given bt_phase]. rewrite app_nil_r in *. rewrite I.
                 split; [reflexivity|]. rewrite <- app_assoc, toy_dec_app. cbn [app toy_dec fst snd]. rewrite app_nil_r. split; [now exists []; rewrite app_nil_r|].
                 intros _ _. f_equal. f_equal. rewrite len_app. unfold len. cbn [length]. lia.
              ** pose proof (bite_half_ok (ate g x01 [] Half) s1 l1 eq_refl) as H. destruct (bite_half (ate g x01 [] Half) s1 l1) as [[[p g'] s'] l'].
                 destruct H as (b & v & UV & H). exists ([x01] ++ b), (u ++ v). split; [exact (used_trans _ _ _ _ _ _ _ _ _ _ US UV)|]. intro I.
                 destruct H as (H1 & H2 & H3); [unfold bite_inv, ate in *; rewrite PH in I; cbn [bt_eaten bt_given bt_phase]; rewrite I, !app_nil_r; reflexivity|].
                 unfold ate in H1, H2, H3. cbn [bt_comp bt_eaten bt_given bt_phase] in H1, H2, H3. rewrite app_nil_r in H3. split; [exact H1|]. split; [rewrite H2; now rewrite <- app_assoc|].
                 cbv zeta in *. destruct p as [|o|e]; [exact H3| |].
                 --- destruct H3 as (L & G1 & I1 & P1). split; [lia|]. split; [exact G1|]. split; [exact I1|]. split; [exact P1|]. intros _ ->. discriminate L.
                 --- destruct H3 as (G1 & [((k & -> & K) & I1)|H3]); (split; [exact G1|]); [left|now right]. split; [exists k; split; [reflexivity|apply in_or_app; now right]|exact I1].
        -- destruct B as (US & k & -> & K). exists [], u. split; [exact US|]. intro I. rewrite app_nil_r. split; [reflexivity|]. split; [reflexivity|]. cbv zeta. split; [reflexivity|].
           left. split; [now exists k|exact I].
      * pose proof (bite_half_ok g s l PH) as H. destruct (bite_half g s l) as [[[p g'] s'] l']. destruct H as (b & u & US & H). exists b, u. split; [exact US|]. intro I.
        destruct (H I) as (H1 & H2 & H3). split; [exact H1|]. split; [exact H2|]. cbv zeta in *. destruct p as [|o|e]; [exact H3| |exact H3].
        destruct H3 as (L & G1 & I1 & P1). split; [lia|]. split; [exact G1|]. split; [exact I1|]. split; [exact P1|]. intros _ ->. discriminate L.
      * exists [], []. split; [exact U0|]. intro I. rewrite !app_nil_r. cbv zeta. split; [reflexivity|]. split; [reflexivity|]. split; [unfold len; cbn; lia|]. split; [reflexivity|].
        split; [exact I|]. split; [now apply inv_prefix|]. intros _ _. unfold bite_inv in I. rewrite PH in I. rewrite I, <- app_assoc, toy_dec_app. cbn [app toy_dec fst snd]. rewrite app_nil_r. f_equal.
        f_equal. rewrite len_app. unfold len. cbn [length]. lia.
Qed.
