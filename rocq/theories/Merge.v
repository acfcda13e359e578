(** A caller that has several streams (base/read/stream.rs), or the same one again after a fault, and copies from one after the other into one new archive, each as in [Relay]. *)
From Verif Require Import Base Headers Entry IO Reader EntryReader ReaderPolls StreamReader DecoderPolls DecoderWalk Writer StreamPolls EncoderPolls AwaitedWrites Piped Relay.

Section Merge.
Context (cd : codec) (D : decoder) (E : engine cd) (k : nat) (cfg : config).
(** whatever ends one stream, the next is begun *)
Fixpoint merge (js : list (list relay_plan * source)) (w : world) : list (list (zentry * relayed) * option (res unit)) * list (wop * option (res unit)) * world :=
  match js with
  | [] => ([], [], w)
  | (l, s) :: js =>
    let '(xs, z, o, w) := relay cd D E k cfg l s w in
    let '(rs, os, w) := merge js w in
    ((xs, z) :: rs, o ++ os, w)
  end.
End Merge.
