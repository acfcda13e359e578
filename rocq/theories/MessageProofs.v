(** Proofs about what errors say of themselves. *)
From Coq Require Import String Ascii DecimalString HexadecimalString DecimalN HexadecimalN.
From Verif Require Import Base BaseFacts Messages.
Open Scope string_scope.

Lemma cons_inj (c : ascii) (a b : string) : String c a = String c b -> a = b.
Proof. now injection 1. Qed.
Lemma prefix_inj (p a b : string) : p ++ a = p ++ b -> a = b.
Proof. induction p as [|c p IH]; [easy|]. intro H. apply IH. now injection H. Qed.

(** A number ends where no digit follows. *)
Definition stops (digit : ascii -> bool) (s : string) : Prop := match s with EmptyString => True | String c _ => digit c = false end.
Definition dec_digit (c : ascii) : bool := ((48 <=? N_of_ascii c) && (N_of_ascii c <=? 57))%N.
Definition hex_digit (c : ascii) : bool := dec_digit c || ((97 <=? N_of_ascii c) && (N_of_ascii c <=? 102))%N.

Lemma dec_split d : forall d' a b, stops dec_digit a -> stops dec_digit b ->
  DecimalString.NilEmpty.string_of_uint d ++ a = DecimalString.NilEmpty.string_of_uint d' ++ b -> d = d' /\ a = b.
Proof.
  induction d as [|d IH|d IH|d IH|d IH|d IH|d IH|d IH|d IH|d IH|d IH]; intros [|d'|d'|d'|d'|d'|d'|d'|d'|d'|d'] a b A B E;
    cbn [DecimalString.NilEmpty.string_of_uint append] in E; try discriminate E; try (now split);
    try (destruct (IH d' a b A B (cons_inj _ _ _ E)) as [-> ->]; now split);
    exfalso; (subst a; discriminate A) || (subst b; discriminate B).
Qed.
Lemma hex_split d : forall d' a b, stops hex_digit a -> stops hex_digit b ->
  HexadecimalString.NilEmpty.string_of_uint d ++ a = HexadecimalString.NilEmpty.string_of_uint d' ++ b -> d = d' /\ a = b.
Proof.
  induction d as [|d IH|d IH|d IH|d IH|d IH|d IH|d IH|d IH|d IH|d IH|d IH|d IH|d IH|d IH|d IH|d IH];
    intros [|d'|d'|d'|d'|d'|d'|d'|d'|d'|d'|d'|d'|d'|d'|d'|d'] a b A B E;
    cbn [HexadecimalString.NilEmpty.string_of_uint append] in E; try discriminate E; try (now split);
    try (destruct (IH d' a b A B (cons_inj _ _ _ E)) as [-> ->]; now split);
    exfalso; (subst a; discriminate A) || (subst b; discriminate B).
Qed.
Lemma decimal_split n n' a b : stops dec_digit a -> stops dec_digit b -> decimal n ++ a = decimal n' ++ b -> n = n' /\ a = b.
Proof. intros A B E. destruct (dec_split _ _ _ _ A B E) as [D ->]. split; [now apply DecimalN.Unsigned.to_uint_inj|easy]. Qed.
Lemma append_nil s : s ++ "" = s.
Proof. induction s as [|c s IH]; [easy|]. cbn [append]. now rewrite IH. Qed.
Lemma decimal_inj n n' : decimal n = decimal n' -> n = n'.
Proof. intro E. apply (decimal_split n n' "" ""); [easy|easy|]. now rewrite !append_nil. Qed.

Lemma told_apart io_text : (forall i j, io_text i = io_text j -> i = j) ->
  forall e e', error_text io_text e = error_text io_text e' -> e = e'.
Proof.
  intros I e e' E.
  destruct e as [f|n|n| |c| | | | | | |x y| |i| | |x y| | ], e' as [f'|n'|n'| |c'| | | | | | |x' y'| |i'| | |x' y'| | ];
    cbn [error_text append] in E; try reflexivity; try discriminate E; repeat apply cons_inj in E.
  - destruct f, f'; try reflexivity; discriminate E.
  - f_equal. now apply decimal_inj.
  - f_equal. now apply decimal_inj.
  - destruct c, c'; try reflexivity; discriminate E.
  - apply decimal_split in E as [-> E]; [|reflexivity|reflexivity]. repeat apply cons_inj in E.
    apply decimal_split in E as [-> _]; [|reflexivity|reflexivity]. reflexivity.
  - f_equal. now apply I.
  - apply hex_split in E as [X E]; [|reflexivity|reflexivity]. repeat apply cons_inj in E.
    apply hex_split in E as [Y _]; [|reflexivity|reflexivity].
    apply HexadecimalN.Unsigned.to_uint_inj in X, Y. now subst.
Qed.

(** ** Two messages that are not true *)
From Verif Require Import ZString Headers ExtraField Entry IO Writer SpecWrite WriteProofs RepeatFacts OutcomeFacts Samples WriteSamples ManyFiles FarFiles Zip64Proofs.
Definition adds (o : wop) : bool := match o with OpWhole _ _ | OpWholePre _ _ | OpStream _ _ _ _ => true | _ => false end.
Lemma count_repeat o n : adds o = true -> filter adds (repeat o n) = repeat o n.
Proof. intro H. induction n; cbn; [easy|]. rewrite H. now f_equal. Qed.
Lemma one_too_many : exists l w xs, run_ops toy l (zw_new []) = (xs, w) /\
  (exists ys o, xs = (ys ++ [(o, Err (Zip64Needed TooManyFiles))])%list) /\ len (filter adds l) = 65536%N.
Proof.
  destruct (nat_of 65535) as (n & E). destruct (crowd_runs n E) as (w & R & _). exists (crowd n), w. eexists. split; [exact R|].
  split; [eexists (_ :: _ :: _), _; reflexivity|]. unfold crowd. cbn [filter adds]. rewrite filter_app, count_repeat by reflexivity.
  unfold len. rewrite app_length, repeat_length. cbn [filter adds length]. lia.
Qed.
Lemma small_but_late : exists o1 w, run_op toy o1 (zw_new []) = (Ok tt, w) /\
  fst (run_op toy (OpWhole (tiny []) []) (set_force_no w true)) = Err (Zip64Needed LargeFile).
Proof.
  destruct (nat_of 0xFFFFFFFF) as (n & E). destruct (long_runs n E) as (w & R & _ & O & _). exists (long_op n), w. split; [exact R|].
  destruct (whole_refused toy (OpWhole (tiny []) []) (tiny []) (set_force_no w true) toy_takes ltac:(discriminate) eq_refl ltac:(constructor) eq_refl) as (it & _ & F & G).
  rewrite G; [reflexivity|]. rewrite F. change (w_offset (set_force_no w true)) with (w_offset w). rewrite O. apply orb_true_r.
Qed.
