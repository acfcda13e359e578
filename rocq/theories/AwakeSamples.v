(** The decoders of [DecoderSamples] wait only for the source. *)
From Verif Require Import Base BaseFacts Headers Entry IO IOFacts Reader EntryReader ReaderPolls SpecReadPolls DecoderPolls SpecDecoder DecoderSamples SpecAwake.

Theorem peeking_lively cd : decoder_lively (peeking cd).
Proof.
  intros n g s l g' s' l'. cbn [dg_poll peeking]. unfold peeking_poll. destruct ((n =? 0) || pk_fin g); [discriminate|].
  destruct (dec cd (pk_comp g) (pk_eaten g ++ ahead s l)) as [out fin]. destruct (s_sched s) as [|[|k|k] q].
  - destruct (take n (drop (len (pk_given g)) out)); [destruct fin|]; discriminate.
  - intro H. injection H as _ <- _. exists [RPending]. split; [reflexivity|now left].
  - destruct (take (N.min n (k + 1)) (drop (len (pk_given g)) out)); [destruct fin|]; discriminate.
  - discriminate.
Qed.
Lemma bite1_waits s l : let '(p, s', l') := bite1 s l in exists u, s_sched s = u ++ s_sched s' /\ (p = RPend -> In RPending u).
Proof.
  unfold bite1. destruct (l =? 0); [exists []; split; [reflexivity|discriminate]|]. unfold poll_read. destruct s as [d pos [|[|k|k] q]]; cbn [s_sched].
  - exists []. split; [reflexivity|discriminate].
  - exists [RPending]. split; [reflexivity|now left].
  - exists [RChunk k]. split; [reflexivity|discriminate].
  - exists [RFail k]. split; [reflexivity|discriminate].
Qed.
Lemma bite_half_waits g s l : let '(p, g', s', l') := bite_half g s l in exists u, s_sched s = u ++ s_sched s' /\ (p = RPend -> In RPending u).
Proof.
  unfold bite_half. pose proof (bite1_waits s l) as B. destruct (bite1 s l) as [[[|b|e] s1] l1]; try exact B.
  destruct B as (u & U & _). destruct b as [|b [|b0 b1]]; exists u; (split; [exact U|discriminate]).
Qed.
Theorem biting_lively : decoder_lively biting.
Proof.
  intros n g s l g' s' l'. cbn [dg_poll biting]. destruct (n =? 0); [discriminate|].
  pose proof (bite_half_waits g s l) as HF. destruct (bt_phase g).
  - unfold bite_fresh. pose proof (bite1_waits s l) as B. destruct (bite1 s l) as [[[|b|e] s1] l1]; [|..|discriminate].
    + intro H. injection H as _ <- _. destruct B as (u & U & I). exists u. split; [exact U|now apply I].
    + destruct b as [|b [|b0 b1]]; [discriminate| |destruct b; discriminate].
      assert (HALF : bite_half (ate g x01 [] Half) s1 l1 = (RPend, g', s', l') -> exists u, s_sched s = u ++ s_sched s' /\ In RPending u).
      { intro H. pose proof (bite_half_waits (ate g x01 [] Half) s1 l1) as H2. rewrite H in H2. destruct B as (u & U & _), H2 as (v & V & I).
        exists (u ++ v). split; [now rewrite U, V, app_assoc|]. apply in_or_app. right. now apply I. }
      destruct b; try discriminate; exact HALF.
  - intro H. rewrite H in HF. destruct HF as (u & U & I). exists u. split; [exact U|now apply I].
  - discriminate.
Qed.
