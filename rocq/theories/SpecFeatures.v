(** What a build of the crate with fewer compression methods, or for a target with a narrower usize, may make of an archive. *)
From Verif Require Import Base SpecFormat Headers ExtraField Entry Reader Features.

(** "stored" is always there *)
Definition compiled (b : build) (m : compression) : Prop := m = Stored \/ b_has b m = true.
(** a directory of [n] entries can be held: its count is a usize, its vector no larger than the largest allocation *)
Definition countable (b : build) (n : N) : Prop := n <= b_usize_max b.
Definition holdable (b : build) (cfg : config) (n : N) : Prop := 2 * (n * entry_mem_size cfg) <= b_usize_max b.
(** the usual build: every method, 64 bits *)
Definition whole_build : build := {| b_has _ := true; b_usize_max := 18446744073709551615 |}.
(** the entry that ends the reading: the first whose method is not compiled in *)
Definition first_missing (b : build) (l : list stored_entry) (m : compression) : Prop :=
  exists pre e post, l = pre ++ e :: post /\ Forall (fun x => compiled b (en_compression (st_entry x))) pre /\
    m = en_compression (st_entry e) /\ ~ compiled b m.
