(** * Props_Talk2: the rules of SpecTalk decide (C90 to C92).

    For one and the same conversation they allow one report and one content of guest memory, so C90 to C92 leave nothing open. *)
From Verif Require Import Base Base_proofs Io Mem SpecMem Mem_proofs Layout SpecFile File_proofs Text Cmdline Loader Elf SpecElf
  Elf_proofs Elf_proofs2 BzImage SpecBz Pe SpecPe Props_Pe Source SpecTalk Talk_proofs Props_Talk.
Local Open Scope list_scope.

(** ** Copies *)
Lemma overlay_ext segs : forall f g, (forall x, f x = g x) -> forall x, overlay f segs x = overlay g segs x.
Proof.
  induction segs as [|[a bs] segs IH]; intros f g H x; [apply H|].
  unfold overlay. cbn [fold_left fst snd]. apply IH. intros y. unfold put. now rewrite H.
Qed.
Lemma overlay_det m m' m1 m2 segs : mem_same m m' -> mem_is_overlay m m1 segs -> mem_is_overlay m' m2 segs -> mem_same m1 m2.
Proof.
  intros (R & B) (R1 & B1) (R2 & B2). split; [congruence|]. intros x. rewrite B1, B2. apply overlay_ext. exact B.
Qed.
Lemma mem_same_refl m : mem_same m m.
Proof. split; reflexivity. Qed.
Lemma dest_ok_same be m m' a n : regions m' = regions m -> dest_ok be m' a n -> dest_ok be m a n.
Proof. unfold dest_ok, range_backed, backed. intros ->. auto. Qed.

Lemma copied_det be m m' a n evs m1 m2 : mem_same m m' -> copied be m a n evs m1 -> copied be m' a n evs m2 -> mem_same m1 m2.
Proof. intros H (_ & _ & _ & _ & O1) (_ & _ & _ & _ & O2). exact (overlay_det _ _ _ _ _ H O1 O2). Qed.
Lemma not_copied_det be m m' a n evs m1 m2 : mem_same m m' -> not_copied be m a n evs m1 -> not_copied be m' a n evs m2 -> mem_same m1 m2.
Proof. intros H (_ & _ & O1) (_ & _ & O2). exact (overlay_det _ _ _ _ _ H O1 O2). Qed.
Lemma copied_or_not be m m' a n evs m1 m2 : regions m' = regions m -> copied be m a n evs m1 -> not_copied be m' a n evs m2 -> False.
Proof.
  intros R (_ & D & F & _) (_ & [N|X] & _).
  - apply N. exact (dest_ok_same _ _ _ _ _ (eq_sym R) D).
  - apply Exists_exists in X. destruct X as (e & I & B). rewrite Forall_forall in F. exact (F e I B).
Qed.
Lemma copied_or_not' be m m' a n evs m1 m2 : regions m' = regions m -> not_copied be m a n evs m1 -> copied be m' a n evs m2 -> False.
Proof. intros R H G. exact (copied_or_not _ _ _ _ _ _ _ _ (eq_sym R) G H). Qed.

(** ** Device trees, PE images, bzImages *)
Theorem C90_dtb_decided : forall be addr m evs m1 o1 m2 o2,
  dtb_talk be addr m evs m1 o1 -> dtb_talk be addr m evs m2 o2 -> mem_same m1 m2 /\ o1 = o2.
Proof.
  intros be addr m evs m1 o1 m2 o2 H G.
  inversion H; subst; inversion G; subst; try lia; try (split; [apply mem_same_refl|reflexivity]);
    try (exfalso; eapply copied_or_not; [|eassumption|eassumption]; reflexivity);
    try (exfalso; eapply copied_or_not'; [|eassumption|eassumption]; reflexivity).
  - split; [|reflexivity]. eapply not_copied_det; [apply mem_same_refl|eassumption|eassumption].
  - split; [|reflexivity]. eapply copied_det; [apply mem_same_refl|eassumption|eassumption].
Qed.

Theorem C90_pe_decided : forall a be off m evs m1 o1 m2 o2,
  pe_talk a be off m evs m1 o1 -> pe_talk a be off m evs m2 o2 -> mem_same m1 m2 /\ o1 = o2.
Proof.
  intros a be off m evs m1 o1 m2 o2 H G.
  inversion H; subst; inversion G; subst; try (split; [apply mem_same_refl|reflexivity]);
    try (exfalso; eapply copied_or_not; [|eassumption|eassumption]; reflexivity);
    try (exfalso; eapply copied_or_not'; [|eassumption|eassumption]; reflexivity);
    try (exfalso; eapply pe_problem_not_good; eassumption).
  - split; [apply mem_same_refl|]. do 2 f_equal. eapply pe_problem_det; eassumption.
  - split; [|reflexivity]. eapply not_copied_det; [apply mem_same_refl|eassumption|eassumption].
  - split; [|reflexivity]. eapply copied_det; [apply mem_same_refl|eassumption|eassumption].
Qed.

Lemma bz_problem_bad n bs h e : bz_problem n bs h e -> ~ bz_good n bs h.
Proof. intros P (G1 & G2 & G3). destruct P; try contradiction; lia. Qed.
Lemma bz_problem_det n bs h e1 e2 : bz_problem n bs h e1 -> bz_problem n bs h e2 -> e1 = e2.
Proof. intros P Q. destruct P, Q; try reflexivity; try contradiction; lia. Qed.

Theorem C91_bz_decided : forall be off highmem m evs m1 o1 m2 o2,
  bz_talk be off highmem m evs m1 o1 -> bz_talk be off highmem m evs m2 o2 -> mem_same m1 m2 /\ o1 = o2.
Proof.
  intros be off highmem m evs m1 o1 m2 o2 H G.
  inversion H; subst; inversion G; subst; try (split; [apply mem_same_refl|reflexivity]);
    try (exfalso; eapply copied_or_not; [|eassumption|eassumption]; reflexivity);
    try (exfalso; eapply copied_or_not'; [|eassumption|eassumption]; reflexivity);
    try (exfalso; eapply bz_problem_bad; eassumption).
  - split; [apply mem_same_refl|]. f_equal. eapply bz_problem_det; eassumption.
  - split; [|reflexivity]. eapply not_copied_det; [apply mem_same_refl|eassumption|eassumption].
  - split; [|reflexivity]. eapply copied_det; [apply mem_same_refl|eassumption|eassumption].
Qed.

(** ** ELF images.  Here one also has to see where one part of the conversation ends and the next begins. *)
Lemma other_note_prefix h n1 n2 r1 r2 : other_note h n1 -> other_note h n2 -> n1 ++ r1 = n2 ++ r2 -> n1 = n2 /\ r1 = r2.
Proof.
  intros [L1 P1|nm1 L1 T1 S1 N1 X1] [L2 P2|nm2 L2 T2 S2 N2 X2]; cbn [app]; intros E; try tauto.
  injection E as -> ->. now split.
Qed.
Lemma other_note_no_name h name r : other_note h name -> u32at h 8 = 18 -> u32at h 0 = 4 -> name ++ r = [ReadAll 4 None] -> False.
Proof. intros [L P|nm L T S N X] A B E; [tauto|discriminate]. Qed.
Lemma entry_prefix h e1 o1 e2 o2 r1 r2 : entry_talk h e1 o1 -> entry_talk h e2 o2 -> e1 ++ r1 = e2 ++ r2 -> e1 = e2 /\ o1 = o2.
Proof.
  intros H G E. inversion H; subst; inversion G; subst; cbn [app] in E; try discriminate; try lia; try (now split).
  - injection E as <- _. now split.
  - injection E as <- _. now split.
  - injection E as <- <- _. now split.
Qed.

Ltac note_done :=
  match goal with
  | P : ~ (?x = 18 /\ ?y = 4), A : ?x = 18, B : ?y = 4 |- _ => exfalso; apply P; split; [exact A|exact B]
  end.

Lemma notes_prefix bld start fsz rs e1 o1 : notes_talk bld start fsz rs e1 o1 -> forall e2 o2 r1 r2,
  notes_talk bld start fsz rs e2 o2 -> e1 ++ r1 = e2 ++ r2 -> e1 = e2 /\ o1 = o2.
Proof.
  induction 1 as [rs L|rs L|rs h L Lh T Z|rs h tail o L Lh T Z En|rs h name L On Ov|rs h name L On Pf A B C|rs h name L On Pf A B
                 |rs h name q evs o L On Pf A B Rest IH];
    intros e2 o2 r1 r2 G E;
    inversion G as [? L'|? L'|? h' L' Lh' T' Z'|? h' tail' ? L' Lh' T' Z' En'|? h' name' L' On' Ov'|? h' name' L' On' Pf' A' B' C'
                   |? h' name' L' On' Pf' A' B'|? h' name' q' evs' ? L' On' Pf' A' B' Rest']; subst;
    try lia; try (now split); cbn [app] in E; try discriminate;
    injection E as Eh E; try (injection Eh as ->); try discriminate; try subst h'.
  (* name missing *)
  - now split.
  - destruct On'; [note_done|discriminate].
  - destruct On'; [note_done|discriminate].
  - destruct On'; [note_done|discriminate].
  - destruct On'; [note_done|discriminate].
  (* found *)
  - destruct (entry_prefix _ _ _ _ _ _ _ En En' E) as (-> & ->). now split.
  - destruct On' as [|nm ? ? ? ? X]; [note_done|]. cbn [app] in E. injection E as E1 _. congruence.
  - destruct On' as [|nm ? ? ? ? X]; [note_done|]. cbn [app] in E. injection E as E1 _. congruence.
  - destruct On' as [|nm ? ? ? ? X]; [note_done|]. cbn [app] in E. injection E as E1 _. congruence.
  - destruct On' as [|nm ? ? ? ? X]; [note_done|]. cbn [app] in E. injection E as E1 _. congruence.
  (* too large *)
  - destruct On; [note_done|discriminate].
  - destruct On as [|nm ? ? ? ? X]; [note_done|]. cbn [app] in E. injection E as E1 _. congruence.
  - destruct (other_note_prefix _ _ _ _ _ On On' E) as (-> & _). now split.
  - unfold pads_fit in *. lia.
  - unfold pads_fit in *. lia.
  - unfold pads_fit in *. lia.
  (* panic *)
  - destruct On; [note_done|discriminate].
  - destruct On as [|nm ? ? ? ? X]; [note_done|]. cbn [app] in E. injection E as E1 _. congruence.
  - unfold pads_fit in *. lia.
  - destruct (other_note_prefix _ _ _ _ _ On On' E) as (-> & _). now split.
  - specialize (B' eq_refl). lia.
  - specialize (B' eq_refl). lia.
  (* no next *)
  - destruct On; [note_done|discriminate].
  - destruct On as [|nm ? ? ? ? X]; [note_done|]. cbn [app] in E. injection E as E1 _. congruence.
  - unfold pads_fit in *. lia.
  - specialize (B eq_refl). lia.
  - rewrite <- !app_assoc in E. destruct (other_note_prefix _ _ _ _ _ On On' E) as (-> & _). now split.
  - rewrite <- !app_assoc in E. destruct (other_note_prefix _ _ _ _ _ On On' E) as (_ & E'). discriminate.
  (* next *)
  - destruct On; [note_done|discriminate].
  - destruct On as [|nm ? ? ? ? X]; [note_done|]. cbn [app] in E. injection E as E1 _. congruence.
  - unfold pads_fit in *. lia.
  - specialize (B eq_refl). lia.
  - rewrite <- !app_assoc in E. destruct (other_note_prefix _ _ _ _ _ On On' E) as (_ & E'). discriminate.
  - rewrite <- !app_assoc in E. destruct (other_note_prefix _ _ _ _ _ On On' E) as (-> & E'). cbn [app] in E'.
    injection E' as -> E'. destruct (IH _ _ _ _ Rest' E') as (-> & ->). now split.
Qed.

(** The next question is not one for bytes into guest memory. *)
Definition no_guest (r : list event) : Prop := match r with ReadGuest _ _ :: _ => False | _ => True end.
Definition is_guest (e : event) : Prop := match e with ReadGuest _ _ => True | _ => False end.
Lemma proper_guest be m : forall evs a n, proper be m a n evs -> Forall is_guest evs.
Proof.
  induction evs as [|e evs IH]; intros a n P; [constructor|].
  destruct e as [| | | | |k got]; cbn [proper] in P; try contradiction. destruct P as (_ & _ & _ & P). constructor; [exact I|].
  destruct got as [bs|]; [exact (IH _ _ (proj2 (proj2 P)))|rewrite P; constructor].
Qed.
Lemma guest_prefix : forall e1 e2 r1 r2, Forall is_guest e1 -> Forall is_guest e2 -> no_guest r1 -> no_guest r2 ->
  e1 ++ r1 = e2 ++ r2 -> e1 = e2.
Proof.
  induction e1 as [|e e1 IH]; intros [|e' e2] r1 r2 F1 F2 N1 N2 E; cbn [app] in E.
  - reflexivity.
  - subst r1. exfalso. pose proof (Forall_inv F2) as X. destruct e'; cbn in X, N1; contradiction.
  - subst r2. exfalso. pose proof (Forall_inv F1) as X. destruct e; cbn in X, N2; contradiction.
  - injection E as <- E. f_equal. exact (IH _ _ _ (Forall_inv_tail F1) (Forall_inv_tail F2) N1 N2 E).
Qed.
Lemma copied_guest be m a n evs m' : copied be m a n evs m' -> Forall is_guest evs.
Proof. intros (P & _). exact (proper_guest _ _ _ _ _ P). Qed.
Lemma not_copied_guest be m a n evs m' : not_copied be m a n evs m' -> Forall is_guest evs.
Proof. intros (P & _). exact (proper_guest _ _ _ _ _ P). Qed.

Ltac same_copy E :=
  let Ee := fresh "Ee" in
  assert (Ee := E); apply guest_prefix in Ee;
  [subst|first [eapply copied_guest; eassumption|eapply not_copied_guest; eassumption]
        |first [eapply copied_guest; eassumption|eapply not_copied_guest; eassumption]|assumption|assumption].

Lemma ph_prefix bld be off p m m' e1 m1 o1 e2 m2 o2 r1 r2 : mem_same m m' ->
  ph_talk bld be off m p e1 m1 o1 -> ph_talk bld be off m' p e2 m2 o2 -> no_guest r1 -> no_guest r2 -> e1 ++ r1 = e2 ++ r2 ->
  e1 = e2 /\ mem_same m1 m2 /\ o1 = o2.
Proof.
  intros Hm H G N1 N2 E. pose proof (proj1 Hm) as Hr.
  inversion H as [I1 I2|k I1 I2 Ho|I1 I2 Ho|q evs o I1 I2 Ho Nt|I1|q I1 A|q evs mm I1 A Cp|q evs mm I1 A Cp B|q evs mm I1 A Cp B]; subst;
  inversion G as [I1' I2'|k' I1' I2' Ho'|I1' I2' Ho'|q' evs' o' I1' I2' Ho' Nt'|I1'|q' I1' A'|q' evs' mm' I1' A' Cp'|q' evs' mm' I1' A' Cp' B'|q' evs' mm' I1' A' Cp' B']; subst;
    try congruence; try lia; cbn [app] in E; try discriminate; try (split; [reflexivity|split; [exact Hm|reflexivity]]);
    try (injection E as -> E).
  - destruct (notes_prefix _ _ _ _ _ _ Nt _ _ _ _ Nt' E) as (-> & ->). split; [reflexivity|split; [exact Hm|reflexivity]].
  - split; [reflexivity|split; [exact Hm|reflexivity]].
  - same_copy E. split; [reflexivity|split; [|reflexivity]]. exact (not_copied_det _ _ _ _ _ _ _ _ Hm Cp Cp').
  - same_copy E. exfalso. exact (copied_or_not' _ _ _ _ _ _ _ _ Hr Cp Cp').
  - same_copy E. exfalso. exact (copied_or_not' _ _ _ _ _ _ _ _ Hr Cp Cp').
  - same_copy E. exfalso. exact (copied_or_not _ _ _ _ _ _ _ _ Hr Cp Cp').
  - same_copy E. split; [reflexivity|split; [|reflexivity]]. exact (copied_det _ _ _ _ _ _ _ _ Hm Cp Cp').
  - same_copy E. exfalso. exact (copied_or_not _ _ _ _ _ _ _ _ Hr Cp Cp').
  - same_copy E. split; [reflexivity|split; [|reflexivity]]. exact (copied_det _ _ _ _ _ _ _ _ Hm Cp Cp').
Qed.

Lemma ph_no_guest bld be off m p evs m' o r : ph_talk bld be off m p evs m' o -> no_guest r -> no_guest (evs ++ r).
Proof. intros H N. inversion H; subst; cbn; auto. Qed.
Lemma table_no_guest bld be off m ps c evs m' o : table_talk bld be off m ps c evs m' o -> no_guest evs.
Proof.
  induction 1 as [|m p ps c evs m' e H|m p ps c evs m' w H|m p ps c evs m1 c1 evs2 m' o H T IH].
  - exact I.
  - rewrite <- (app_nil_r evs). exact (ph_no_guest _ _ _ _ _ _ _ _ [] H I).
  - rewrite <- (app_nil_r evs). exact (ph_no_guest _ _ _ _ _ _ _ _ [] H I).
  - exact (ph_no_guest _ _ _ _ _ _ _ _ _ H IH).
Qed.

Lemma table_decided bld be off m ps c evs m1 o1 : table_talk bld be off m ps c evs m1 o1 -> forall m' m2 o2, mem_same m m' ->
  table_talk bld be off m' ps c evs m2 o2 -> mem_same m1 m2 /\ o1 = o2.
Proof.
  induction 1 as [m c|m p ps c evs mx e H|m p ps c evs mx w H|m p ps c evs mi c1 evs2 mx o H T IH]; intros m' m2 o2 Hm G;
    inversion G as [|? ? ? ? ? ? ? H'|? ? ? ? ? ? ? H'|? ? ? ? ea ? ? eb ? ? H' T']; subst; try (now split).
  - destruct (ph_prefix _ _ _ _ _ _ _ _ _ _ _ _ [] [] Hm H H' I I eq_refl) as (_ & A & B). split; [exact A|congruence].
  - destruct (ph_prefix _ _ _ _ _ _ _ _ _ _ _ _ [] [] Hm H H' I I eq_refl) as (_ & A & B). discriminate.
  - destruct (ph_prefix _ _ _ _ _ _ _ _ _ _ _ _ [] eb Hm H H' I (table_no_guest _ _ _ _ _ _ _ _ _ T') (app_nil_r _)) as (_ & A & B). discriminate.
  - destruct (ph_prefix _ _ _ _ _ _ _ _ _ _ _ _ [] [] Hm H H' I I eq_refl) as (_ & A & B). discriminate.
  - destruct (ph_prefix _ _ _ _ _ _ _ _ _ _ _ _ [] [] Hm H H' I I eq_refl) as (_ & A & B). split; [exact A|congruence].
  - destruct (ph_prefix _ _ _ _ _ _ _ _ _ _ _ _ [] eb Hm H H' I (table_no_guest _ _ _ _ _ _ _ _ _ T') (app_nil_r _)) as (_ & A & B). discriminate.
  - destruct (ph_prefix _ _ _ _ _ _ _ _ _ _ _ _ evs2 [] Hm H H' (table_no_guest _ _ _ _ _ _ _ _ _ T) I (eq_sym (app_nil_r _))) as (_ & A & B). discriminate.
  - destruct (ph_prefix _ _ _ _ _ _ _ _ _ _ _ _ evs2 [] Hm H H' (table_no_guest _ _ _ _ _ _ _ _ _ T) I (eq_sym (app_nil_r _))) as (_ & A & B). discriminate.
  - match goal with Ee : _ ++ _ = _ ++ _ |- _ =>
      destruct (ph_prefix _ _ _ _ _ _ _ _ _ _ _ _ evs2 eb Hm H H' (table_no_guest _ _ _ _ _ _ _ _ _ T) (table_no_guest _ _ _ _ _ _ _ _ _ T') (eq_sym Ee)) as (E1 & A & B);
      subst ea; apply app_inv_head in Ee; subst eb end.
    injection B as <-. exact (IH _ _ _ A T').
Qed.

Lemma elf_problem_bad h off hm e : elf_problem h off hm e -> ~ elf_good h off hm.
Proof.
  intros P (L & G1 & G2 & G3). destruct P as [e P|P1 P2|P1 P2 P3]; [exact (header_problem_bad _ _ P G1)|contradiction|lia].
Qed.
Lemma elf_problem_det h off hm e1 e2 : elf_problem h off hm e1 -> elf_problem h off hm e2 -> e1 = e2.
Proof.
  intros P Q.
  assert (A : forall e, elf_problem h off hm e -> start_problem h 0 off hm e).
  { intros e [e0 X|X1 X2|X1 X2 X3]; [now apply sp_header|now apply sp_entry|now apply sp_overflow]. }
  exact (start_problem_det _ _ _ _ _ _ (A _ P) (A _ Q)).
Qed.
Lemma entries_prefix : forall bs bs' r r', List.length bs = List.length bs' ->
  map got_entry bs ++ r = map got_entry bs' ++ r' -> bs = bs' /\ r = r'.
Proof.
  induction bs as [|b bs IH]; intros [|b' bs'] r r' L E; cbn [map app List.length] in *; try discriminate; [now split|].
  unfold got_entry at 1 3 in E. injection E as -> E. injection L as L. destruct (IH _ _ _ L E) as (-> & ->). now split.
Qed.
Lemma entries_short : forall bs bs' r', (List.length bs < List.length bs')%nat -> map got_entry bs ++ [ReadAll 56 None] = map got_entry bs' ++ r' -> False.
Proof.
  induction bs as [|b bs IH]; intros [|b' bs'] r' L E; cbn [map app List.length] in *; try lia; [discriminate|].
  unfold got_entry at 1 3 in E. injection E as -> E. apply Nat.succ_lt_mono in L. exact (IH _ _ L E).
Qed.

Theorem C92_elf_decided : forall bld be off highmem m evs m1 o1 m2 o2,
  elf_talk bld be off highmem m evs m1 o1 -> elf_talk bld be off highmem m evs m2 o2 -> mem_same m1 m2 /\ o1 = o2.
Proof.
  intros bld be off highmem m evs m1 o1 m2 o2 H G.
  inversion H as [|q|q h e L P|q h Gd|q h q2 bs Gd Ln Fa|q h q2 bs ev mm o Gd Ln Fa T]; subst;
  inversion G as [|q'|q' h' e' L' P'|q' h' Gd'|q' h' q2' bs' Gd' Ln' Fa'|q' h' q2' bs' ev' mm' o' Gd' Ln' Fa' T']; subst;
    try (split; [apply mem_same_refl|reflexivity]).
  - split; [apply mem_same_refl|]. do 2 f_equal. exact (elf_problem_det _ _ _ _ _ P P').
  - exfalso. match goal with Ee : map got_entry _ ++ _ = _ |- _ => symmetry in Ee; revert Ee end. intros Ee.
    refine (entries_short _ _ _ _ Ee). unfold lenN, bytes in *. lia.
  - exfalso. match goal with Ee : map got_entry _ ++ _ = _ |- _ => refine (entries_short _ _ _ _ Ee) end. unfold lenN, bytes in *. lia.
  - match goal with Ee : map got_entry _ ++ _ = map got_entry _ ++ _ |- _ => apply entries_prefix in Ee; [destruct Ee as (-> & ->)|unfold lenN, bytes in *; lia] end.
    destruct (table_decided _ _ _ _ _ _ _ _ _ T _ _ _ (mem_same_refl m) T') as (A & ->). split; [exact A|reflexivity].
Qed.

(** Examples: conversations the rules do allow, one for each kind of image. *)
Example C90_C92_decided_hypotheses :
  (exists evs m' res, pe_talk Aarch64 TryAccess (Some 0x200000) some_memory evs m' (Ok res)) /\
  (exists evs m' res, bz_talk GetSlices None (Some 0x100000) some_memory evs m' (Ok res)) /\
  (exists evs m' res, elf_talk true GetSlices None None some_memory evs m' (Ok res)).
Proof.
  destruct C90_C93_hypotheses as (Hp & Hr & _). assert (W : wf_mem some_memory = true) by reflexivity.
  split; [|split].
  - pose proof C90_two_faced as X. destruct (gpe_load scripted Aarch64 TryAccess (Some 0x200000) None two_faced some_memory) as ((s', m'), o) eqn:E.
    destruct (C90_pe _ _ _ _ _ _ _ _ _ _ _ Hp Hr W E) as (evs & _ & T). destruct X as (_ & -> & _). eauto.
  - pose proof C91_shrinking as X. destruct (gbz_load scripted GetSlices None (Some 0x100000) shrinking some_memory) as ((s', m'), o) eqn:E.
    assert (Hn : forall k, None = Some k -> k < 2 ^ 64) by (intros k; discriminate).
    destruct (C91_bz _ _ _ _ _ _ _ _ _ _ Hp Hr W Hn E) as (evs & _ & T). destruct o; [eauto|destruct X|destruct X].
  - pose proof C92_good_elf as X. destruct (gelf_load scripted true GetSlices None None good_elf some_memory) as ((s', m'), o) eqn:E.
    destruct (C92_elf _ _ _ _ _ _ _ _ _ _ _ Hp Hr W E) as (evs & _ & T). destruct X as (_ & -> & _). eauto.
Qed.

(** ** C94: the number of questions is bounded by what the source has announced.  Whatever the image, no load goes on forever
    or does work out of proportion to the sizes in the header. *)
Lemma len0 {A} : lenN (@nil A) = 0.
Proof. reflexivity. Qed.
Lemma proper_length be m : forall evs a n, proper be m a n evs -> lenN evs <= N.max n 1.
Proof.
  induction evs as [|e evs IH]; intros a n P; [rewrite len0; lia|].
  destruct e as [| | | | |k got]; cbn [proper] in P; try contradiction. destruct P as (Hk & _ & _ & P). rewrite lenN_cons.
  destruct got as [bs|]; [|subst evs; rewrite len0; lia].
  destruct P as (Hl & Z & P).
  assert (Hm : moved be k bs <= n) by (unfold moved; destruct be; lia).
  destruct (N.eq_dec (moved be k bs) 0) as [Hz|Hz]; [rewrite (Z (or_introl Hz)), len0; lia|].
  destruct (N.eq_dec (moved be k bs) n) as [Hn|Hn]; [rewrite (Z (or_intror Hn)), len0; lia|].
  apply IH in P. lia.
Qed.
Lemma copied_length be m a n evs m' : copied be m a n evs m' -> lenN evs <= N.max n 1.
Proof. intros (P & _). exact (proper_length _ _ _ _ _ P). Qed.
Lemma not_copied_length be m a n evs m' : not_copied be m a n evs m' -> lenN evs <= N.max n 1.
Proof. intros (P & _). exact (proper_length _ _ _ _ _ P). Qed.
Ltac copy_len := match goal with
  | H : copied _ _ _ _ _ _ |- _ => pose proof (copied_length _ _ _ _ _ _ H)
  | H : not_copied _ _ _ _ _ _ |- _ => pose proof (not_copied_length _ _ _ _ _ _ H) end.

(** The length the source gave, in answer to the first question. *)
Definition announced (evs : list event) : N := match evs with SoughtEnd (Some n) :: _ => n | _ => 0 end.

Theorem C94_dtb : forall S (src : source S) be addr s m s' m' o, plausible src -> roomy src -> wf_mem m = true ->
  gload_dtb src be addr s m = (s', m', o) -> exists evs, talk src s evs s' /\ lenN evs <= 2 + 2 * 1024 * 1024.
Proof.
  intros S src be addr s m s' m' o Hp Hr W E. destruct (C90_dtb _ _ _ _ _ _ _ _ _ Hp Hr W E) as (evs & T & R). exists evs. split; [exact T|].
  inversion R; subst; rewrite ?lenN_cons, ?len0; try lia; copy_len; lia.
Qed.
Theorem C94_pe : forall S (src : source S) a be off highmem s m s' m' o, plausible src -> roomy src -> wf_mem m = true ->
  gpe_load src a be off highmem s m = (s', m', o) -> exists evs, talk src s evs s' /\ lenN evs <= 5 + announced evs.
Proof.
  intros S src a be off highmem s m s' m' o Hp Hr W E. destruct (C90_pe _ _ _ _ _ _ _ _ _ _ _ Hp Hr W E) as (evs & T & R). exists evs. split; [exact T|].
  inversion R; subst; cbn [announced]; rewrite ?lenN_cons, ?len0; try lia; copy_len; lia.
Qed.
Theorem C94_bz : forall S (src : source S) be off highmem s m s' m' o, plausible src -> roomy src -> wf_mem m = true ->
  (forall k, off = Some k -> k < 2 ^ 64) ->
  gbz_load src be off highmem s m = (s', m', o) -> exists evs, talk src s evs s' /\ lenN evs <= 5 + announced evs.
Proof.
  intros S src be off highmem s m s' m' o Hp Hr W Ho E. destruct (C91_bz _ _ _ _ _ _ _ _ _ _ Hp Hr W Ho E) as (evs & T & R). exists evs. split; [exact T|].
  inversion R; subst; cbn [announced]; rewrite ?lenN_cons, ?len0; try lia; copy_len; lia.
Qed.

(** The program headers the source gave (the only reads of 56 bytes). *)
Definition entry_in (e : event) : list ph := match e with ReadAll k (Some b) => if k =? 56 then [ph_read b] else [] | _ => [] end.
Definition entries (evs : list event) : list ph := flat_map entry_in evs.
Definition total_size (ps : list ph) : N := fold_right (fun p t => ph_filesz p + t) 0 ps.

Lemma notes_length bld start fsz rs evs o : notes_talk bld start fsz rs evs o ->
  lenN evs <= fsz - rs + 4 /\ (fsz <= rs -> evs = []) /\ entries evs = [].
Proof.
  assert (On : forall h name, other_note h name -> lenN name <= 1 /\ entries name = []).
  { intros h name [|]; split; try reflexivity; rewrite ?lenN_cons, ?len0; lia. }
  assert (App : forall a b, entries a = [] -> entries b = [] -> entries (a ++ b) = []).
  { intros a b Ha Hb. unfold entries in *. rewrite flat_map_app, Ha, Hb. reflexivity. }
  assert (Len : forall h, 12 <= note_len h) by (intros h; unfold note_len; lia).
  induction 1 as [rs L|rs L|rs h L Lh T Z|rs h tail o L Lh T Z En|rs h name L O Ov|rs h name L O Pf A B C|rs h name L O Pf A B
                 |rs h name q evs o L O Pf A B Rest IH].
  - split; [rewrite len0; lia|now split].
  - split; [rewrite lenN_cons, len0; lia|split; [lia|reflexivity]].
  - split; [rewrite !lenN_cons, len0; lia|split; [lia|reflexivity]].
  - split; [|split; [lia|destruct En; reflexivity]]. destruct En; rewrite ?lenN_cons, len0; lia.
  - destruct (On _ _ O) as (O1 & O2). split; [rewrite lenN_cons; lia|split; [lia|exact O2]].
  - destruct (On _ _ O) as (O1 & O2). split; [rewrite lenN_cons; lia|split; [lia|exact O2]].
  - destruct (On _ _ O) as (O1 & O2). split; [rewrite lenN_cons, lenN_app, lenN_cons, len0; lia|split; [lia|]].
    cbn. apply App; [exact O2|reflexivity].
  - destruct (On _ _ O) as (O1 & O2). destruct IH as (I1 & I2 & I3). split; [|split; [lia|cbn; apply App; [exact O2|exact I3]]].
    rewrite lenN_cons, lenN_app, lenN_cons. pose proof (Len h). destruct (N.le_gt_cases fsz (rs + note_len h)) as [Hf|Hf].
    + rewrite (I2 Hf), len0. lia.
    + lia.
Qed.

Lemma guest_entries evs : Forall is_guest evs -> entries evs = [].
Proof. induction 1 as [|e evs He _ IH]; [reflexivity|]. destruct e; cbn in He; try contradiction. exact IH. Qed.
Lemma ph_length bld be off m p evs m' o : ph_talk bld be off m p evs m' o -> lenN evs <= ph_filesz p + 5 /\ entries evs = [].
Proof.
  intros H. assert (Z : is_load p = true -> 1 <= ph_filesz p).
  { unfold is_load. destruct (N.eqb_spec (ph_filesz p) 0); [rewrite andb_false_r; discriminate|lia]. }
  inversion H as [I1 I2|k I1 I2 Ho|I1 I2 Ho|q ev o' I1 I2 Ho Nt|I1|q I1 A|q ev mm I1 A Cp|q ev mm I1 A Cp B|q ev mm I1 A Cp B]; subst;
    try (split; [rewrite ?lenN_cons, len0; lia|reflexivity]).
  - destruct (notes_length _ _ _ _ _ _ Nt) as (L & _ & En). split; [rewrite lenN_cons; lia|exact En].
  - pose proof (not_copied_length _ _ _ _ _ _ Cp). specialize (Z I1). split; [rewrite lenN_cons; lia|exact (guest_entries _ (not_copied_guest _ _ _ _ _ _ Cp))].
  - pose proof (copied_length _ _ _ _ _ _ Cp). specialize (Z I1). split; [rewrite lenN_cons; lia|exact (guest_entries _ (copied_guest _ _ _ _ _ _ Cp))].
  - pose proof (copied_length _ _ _ _ _ _ Cp). specialize (Z I1). split; [rewrite lenN_cons; lia|exact (guest_entries _ (copied_guest _ _ _ _ _ _ Cp))].
Qed.
Lemma table_length bld be off m ps c evs m' o : table_talk bld be off m ps c evs m' o ->
  lenN evs <= total_size ps + 5 * lenN ps /\ entries evs = [].
Proof.
  induction 1 as [|m p ps c evs m' e H|m p ps c evs m' w H|m p ps c evs m1 c1 evs2 m' o H T IH].
  - split; [rewrite !len0; cbn; lia|reflexivity].
  - destruct (ph_length _ _ _ _ _ _ _ _ H) as (L & E). split; [|exact E]. rewrite lenN_cons. cbn [total_size fold_right]. fold (total_size ps). lia.
  - destruct (ph_length _ _ _ _ _ _ _ _ H) as (L & E). split; [|exact E]. rewrite lenN_cons. cbn [total_size fold_right]. fold (total_size ps). lia.
  - destruct (ph_length _ _ _ _ _ _ _ _ H) as (L & E). destruct IH as (L2 & E2). split.
    + rewrite lenN_app, lenN_cons. cbn [total_size fold_right]. fold (total_size ps). lia.
    + unfold entries in *. rewrite flat_map_app, E, E2. reflexivity.
Qed.
Lemma entries_map bs : entries (map got_entry bs) = map ph_read bs.
Proof. unfold entries. induction bs as [|b bs IH]; [reflexivity|]. cbn [map flat_map got_entry entry_in]. rewrite N.eqb_refl. cbn [app]. f_equal. exact IH. Qed.

Theorem C94_elf : forall S (src : source S) bld be off highmem s m s' m' o, plausible src -> roomy src -> wf_mem m = true ->
  gelf_load src bld be off highmem s m = (s', m', o) ->
  exists evs, talk src s evs s' /\ lenN evs <= 4 + 6 * lenN (entries evs) + total_size (entries evs) /\ lenN (entries evs) < 2 ^ 16.
Proof.
  intros S src bld be off highmem s m s' m' o Hp Hr W E. destruct (C92_elf _ _ _ _ _ _ _ _ _ _ _ Hp Hr W E) as (evs & T & R). exists evs. split; [exact T|].
  assert (Hn : forall h, phnum_of h < 2 ^ 16) by (intros h; apply u16at_lt).
  assert (App : forall bs r, entries (map got_entry bs ++ r) = map ph_read bs ++ entries r).
  { intros bs r. rewrite <- entries_map. unfold entries. apply flat_map_app. }
  inversion R as [|q|q h e L P|q h Gd|q h q2 bs Gd Ln Fa|q h q2 bs ev mm o' Gd Ln Fa Tb]; subst;
    try (split; [rewrite ?lenN_cons, ?len0; lia|rewrite ?len0; reflexivity]).
  - specialize (Hn h). change (entries (SoughtTo 0 (Some q) :: ReadAll 64 (Some h) :: SoughtTo (phoff_of h) (Some q2) :: map got_entry bs ++ [ReadAll 56 None]))
      with (entries (map got_entry bs ++ [ReadAll 56 None])).
    rewrite App. cbn [entries flat_map entry_in app]. rewrite app_nil_r, !lenN_cons, lenN_app, lenN_cons, !lenN_map, len0. split; [lia|]. unfold bytes in *. lia.
  - specialize (Hn h). destruct (table_length _ _ _ _ _ _ _ _ _ Tb) as (L & En).
    change (entries (SoughtTo 0 (Some q) :: ReadAll 64 (Some h) :: SoughtTo (phoff_of h) (Some q2) :: map got_entry bs ++ ev))
      with (entries (map got_entry bs ++ ev)).
    rewrite App, En, app_nil_r, !lenN_cons, lenN_app, !lenN_map. rewrite lenN_map in L. unfold bytes in *. split; lia.
Qed.

(** The bounds are met by the examples of Props_Talk; here with the numbers. *)
Example C94_applies :
  lenN two_faced = 6 /\ announced two_faced = 70 /\ lenN good_elf = 12 /\ lenN (entries good_elf) = 2 /\ total_size (entries good_elf) = 36.
Proof. split; [reflexivity|]. split; [reflexivity|]. split; [reflexivity|]. split; vm_compute; reflexivity. Qed.
