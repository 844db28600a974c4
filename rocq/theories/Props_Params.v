(** * Props_Params: property C80.

    Building boot parameters with the crate and with the rules of SpecParams comes to the same. *)
From Verif Require Import Base Base_proofs Io Mem SpecMem SpecBoot BootParams Boot_proofs Configurators Props_Boot SpecParams.

(** What the crate does. *)
Definition reply_of (o : outcome berror N) : reply :=
  match o with Ok a => Added a | Err e => Refused e | Panic _ => Aborted end.
Fixpoint crate_params (bld : build) (p : boot_info) (cs : list bcall) : list reply * option boot_info :=
  match cs with
  | [] => ([], Some p)
  | c :: cs' =>
      match call bld p c with
      | (_, Panic _) => ([Aborted], None)
      | (p', o) => let (rs, fin) := crate_params bld p' cs' in (reply_of o :: rs, fin)
      end
  end.


Lemma placed_det v o e v1 v2 : placed v o e v1 -> placed v o e v2 -> v1 = v2.
Proof.
  intros (L1 & H1) (L2 & H2).
  assert (X : forall n, nth_error v1 n = nth_error v2 n).
  { intros n. assert (L : lenN v1 = lenN v2) by congruence. destruct (N.lt_ge_cases (N.of_nat n) (lenN v1)) as [G|G].
    - specialize (H1 (N.of_nat n) G). rewrite L in G. specialize (H2 (N.of_nat n) G). rewrite Nat2N.id in *. congruence.
    - rewrite (proj2 (nth_error_None v1 n)), (proj2 (nth_error_None v2 n)); [reflexivity|unfold lenN in *; lia|unfold lenN in *; lia]. }
  clear - X. revert v2 X. induction v1 as [|x v1 IH]; intros [|y v2] X; [reflexivity| | |].
  - discriminate (X 0%nat).
  - discriminate (X 0%nat).
  - f_equal; [pose proof (X 0%nat) as Y; cbn in Y; congruence|]. apply IH. intros n. exact (X (S n)).
Qed.

Lemma add_says_det v s e addr r1 v1 s1 r2 v2 s2 :
  add_says v s e addr r1 v1 s1 -> add_says v s e addr r2 v2 s2 -> r1 = r2 /\ v1 = v2 /\ s1 = s2.
Proof.
  intros H H'. destruct H as [E A|s0 E L|s0 a E L A B|s0 w E L A B C|s0 a w E L A B C D|s0 E L A B|s0 a E L A B C];
    destruct H' as [E' A'|s0' E' L'|s0' a' E' L' A' B'|s0' w' E' L' A' B' C'|s0' a' w' E' L' A' B' C' D'|s0' E' L' A' B'|s0' a' E' L' A' B' C'];
    try (subst s addr; cbn in *; discriminate);
    try (assert (s0 = s0') by congruence; subst s0'); try (assert (a = a') by congruence; subst a'); try congruence; try lia; auto.
  - subst w w'. auto.
  - rewrite (placed_det _ _ _ _ _ D D'). auto.
Qed.

Lemma add_obeys bld w p e addr p' o :
  call_ok (start_of w p) addr (contents (list_of w p)) e -> add w bld p e addr = (p', o) ->
  exists v s, add_says (contents (list_of w p)) (start_of w p) e addr (reply_of o) v s /\
    ((forall q, o <> Panic q) -> same_but w p p' /\ list_of w p' = Some v /\ start_of w p' = s).
Proof.
  intros Hc H. destruct (add_spec _ _ _ _ _ _ _ Hc H) as (Sb & v' & Lv & Sv & Hx). cbv zeta in Hx.
  destruct Hx as [(E & -> & ->)|(s & E & [(L & -> & ->)|(L & [(B & -> & ->)|(B & [(Hu & q & ->)|(Hu & -> & P)])])])];
    cbn [reply_of].
  - exists (contents (list_of w p)), None. split.
    + destruct (start_of w p) eqn:Es; cbn in E; [discriminate|]. now apply add_nowhere.
    + intros _. rewrite Sv. auto.
  - exists (contents (list_of w p)), (Some s). split; [now apply add_overflow|]. intros _. rewrite Sv. auto.
  - destruct addr as [a|]; [|lia]. exists (contents (list_of w p)), (Some s). split; [now apply add_before with a|]. intros _. rewrite Sv. auto.
  - exists (contents (list_of w p)), (Some s). split; [|intros X; now destruct (X q)].
    destruct addr as [a|]; cbv iota in B, Hu |- *; [now apply add_huge_at with a|]. apply add_huge_end; try assumption; [reflexivity|].
    replace (s + lenN (contents (list_of w p)) - s) with (lenN (contents (list_of w p))) in Hu by lia. exact Hu.
  - exists v', (Some s). split; [|intros _; rewrite Sv; auto].
    destruct addr as [a|]; cbv iota in B, Hu, P |- *; [now apply add_at|].
    replace (s + lenN (contents (list_of w p)) - s) with (lenN (contents (list_of w p))) in Hu, P by lia.
    apply add_end; try assumption; [reflexivity|now apply placed_end].
Qed.

Lemma same_but_eq w p p' v s : same_but w p p' -> list_of w p' = Some v -> start_of w p' = s ->
  p' = match w with
       | Sections => mkBoot (header p) (header_start p) (Some v) s (modules p) (modules_start p)
       | Modules => mkBoot (header p) (header_start p) (sections p) (sections_start p) (Some v) s
       end.
Proof.
  intros (A & B & C & D) L S0. destruct p' as [h hs se ss mo ms].
  destruct w; cbn [list_of start_of other header header_start sections sections_start modules modules_start] in *; subst; reflexivity.
Qed.

Lemma bcall_obeys bld p c p' o : sized p -> call_sized c -> call bld p c = (p', o) ->
  exists p2, bcall_says p c (reply_of o) p2 /\ ((forall q, o <> Panic q) -> p' = p2).
Proof.
  intros Hs Hc H. destruct c as [w es a|w e addr]; cbn [call] in H.
  - injection H as <- <-. cbn [reply_of]. destruct w; eexists; (split; [constructor|intros _; reflexivity]).
  - destruct (add_obeys _ _ _ _ _ _ _ (sized_call _ _ _ _ Hs Hc) H) as (v & s & A & B).
    destruct w; cbn [list_of start_of] in A.
    + eexists. split; [apply says_add_section; exact A|]. intros X. destruct (B X) as (B1 & B2 & B3). exact (same_but_eq Sections _ _ _ _ B1 B2 B3).
    + eexists. split; [apply says_add_module; exact A|]. intros X. destruct (B X) as (B1 & B2 & B3). exact (same_but_eq Modules _ _ _ _ B1 B2 B3).
Qed.

Lemma bcall_det p c r1 p1 r2 p2 : bcall_says p c r1 p1 -> bcall_says p c r2 p2 -> r1 = r2 /\ p1 = p2.
Proof.
  intros H H'. inversion H; subst; inversion H'; subst; auto;
    match goal with X : add_says _ _ _ _ r1 _ _, Y : add_says _ _ _ _ r2 _ _ |- _ =>
      destruct (add_says_det _ _ _ _ _ _ _ _ _ _ X Y) as (<- & <- & <-) end; auto.
Qed.

(** ** C80 *)
Theorem C80_boot_parameters : forall bld p cs rs fin,
  sized p -> Forall call_sized cs ->
  (bcalls_say p cs rs fin <-> crate_params bld p cs = (rs, fin)).
Proof.
  intros bld p cs. revert p. induction cs as [|c cs IH]; intros p rs fin Hs Hc.
  - cbn [crate_params]. split; [intros H; inversion H; subst; reflexivity|intros H; injection H as <- <-; constructor].
  - inversion Hc as [|? ? Hc1 Hc2]; subst. cbn [crate_params]. destruct (call bld p c) as [p' o] eqn:E.
    destruct (bcall_obeys bld p c p' o Hs Hc1 E) as (p2 & B & Bp).
    assert (Hcase : (exists q, o = Panic q) \/ (forall q, o <> Panic q)) by (destruct o as [| |q]; [right; discriminate|right; discriminate|left; eauto]).
    destruct Hcase as [(q & ->)|Hn].
    + cbn [reply_of] in B. split.
      * intros H. inversion H as [|c0 cs0 p3 X|c0 cs0 r rs0 p3 fin0 X N R]; subst; [reflexivity|].
        destruct (bcall_det _ _ _ _ _ _ B X) as (<- & _). congruence.
      * intros H. injection H as <- <-. now apply bsay_aborted with p2.
    + specialize (Bp Hn). subst p2.
      assert (Hs' : sized p') by (eapply call_keeps_sized; eassumption).
      assert (Hna : reply_of o <> Aborted) by (destruct o as [| |q]; [discriminate|discriminate|now destruct (Hn q)]).
      replace (match o with Panic _ => ([Aborted], None) | _ => let (rs1, fin1) := crate_params bld p' cs in (reply_of o :: rs1, fin1) end)
        with (let (rs1, fin1) := crate_params bld p' cs in (reply_of o :: rs1, fin1))
        by (destruct o as [| |q]; [reflexivity|reflexivity|now destruct (Hn q)]).
      destruct (crate_params bld p' cs) as [rs1 fin1] eqn:E1. split.
      * intros H. inversion H as [|c0 cs0 p3 X|c0 cs0 r rs0 p3 fin0 X N R]; subst.
        -- destruct (bcall_det _ _ _ _ _ _ B X) as (Y & _). congruence.
        -- destruct (bcall_det _ _ _ _ _ _ B X) as (<- & <-). apply (IH _ _ _ Hs' Hc2) in R. congruence.
      * intros H. injection H as <- <-. apply bsay_call with p'; [exact B|exact Hna|]. now apply (IH _ _ _ Hs' Hc2).
Qed.
(** Exactly one story, the same in debug and release builds. *)
Theorem C80_one_story : forall p cs, sized p -> Forall call_sized cs ->
  (exists rs fin, bcalls_say p cs rs fin /\ forall rs' fin', bcalls_say p cs rs' fin' -> rs' = rs /\ fin' = fin) /\
  forall bld bld', crate_params bld p cs = crate_params bld' p cs.
Proof.
  intros p cs Hs Hc. split.
  - destruct (crate_params true p cs) as [rs fin] eqn:E. exists rs, fin. split; [now apply (C80_boot_parameters true)|].
    intros rs' fin' H. apply (C80_boot_parameters true _ _ _ _ Hs Hc) in H. split; congruence.
  - intros bld bld'. destruct (crate_params bld p cs) as [rs fin] eqn:E. symmetry.
    now apply (C80_boot_parameters bld' p cs rs fin Hs Hc), (C80_boot_parameters bld p cs rs fin Hs Hc).
Qed.

(** Worked out with the rules alone: an append without address is refused and still makes the
    list present; the first addressed element fixes the start; a gap is zero-filled. *)
Example C80_applies : bcalls_say (bp_new [x01] 0x1000)
  [BAdd Modules [xaa] None; BAdd Modules [xaa] (Some 0x2000); BAdd Modules [xbb] (Some 0x2003);
   BAdd Modules [xcc] (Some 0x1fff); BAdd Modules [xdd] None; BSet Sections [[x05]; [x06]] 0x3000]
  [Refused MissingStartAddress; Added 0x2000; Added 0x2003; Refused InvalidAddress; Added 0x2004; Added 0x3000]
  (Some (mkBoot [x01] 0x1000 (Some [x05; x06]) (Some 0x3000) (Some [xaa; x00; x00; xbb; xdd]) (Some 0x2000))).
Proof.
  assert (Hs : sized (bp_new [x01] 0x1000)).
  { intros w. destruct w; (split; [vm_compute; discriminate|discriminate]). }
  apply (C80_boot_parameters true); [exact Hs| |vm_compute; reflexivity].
  repeat apply Forall_cons; try apply Forall_nil; cbn [call_sized];
    (split; [vm_compute; discriminate|]); try (intros a X; injection X as <-; reflexivity); try discriminate; reflexivity.
Qed.
Example C80_abort :
  bcalls_say (bp_new [x01] 0x1000) [BAdd Modules [xaa] (Some 0); BAdd Modules [xaa] (Some (2 ^ 64 - 1))]
    [Added 0; Aborted] None.
Proof.

  eapply bsay_call.
  - apply says_add_module. apply (add_at _ _ _ _ 0 0 [xaa]); cbn; try reflexivity; try lia.
    split; [reflexivity|]. intros j Hj. change (lenN [xaa]) with 1 in *. assert (j = 0) as -> by lia. reflexivity.
  - discriminate.
  - eapply bsay_aborted. apply says_add_module. cbn [modules modules_start contents].
    apply (add_huge_at _ _ _ _ 0 (2 ^ 64 - 1)); cbn; try reflexivity; lia.
Qed.
