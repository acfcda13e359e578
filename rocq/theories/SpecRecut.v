(** The same session with the data of its streams cut into writes in another way. *)
From Verif Require Import Base Headers Entry IO Writer SpecWrite.

(** only for data that goes into the archive as it is *)
Inductive recut : wop -> wop -> Prop :=
| recut_same o : recut o o
| recut_stream pre e b1 b2 closed : pre = true \/ en_compression e = Stored -> fed_bytes b1 = fed_bytes b2 ->
    recut (OpStream pre e b1 closed) (OpStream pre e b2 closed).
