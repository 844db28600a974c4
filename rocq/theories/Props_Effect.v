(** * Props_Effect: property C86.

    The rules of SpecDecide and SpecEffect together decide what every call with a working source
    reports and, byte by byte, what guest memory holds afterwards, also when the call fails. *)
From Verif Require Import Base Base_proofs Io Mem SpecMem Mem_proofs Layout SpecFile File_proofs Text Cmdline SpecCmdline
  Loader Elf SpecElf Elf_proofs2 BzImage SpecBz Bz_proofs Pe SpecPe Pe_proofs BootParams Configurators SpecVmm
  Demo_elf Props_Cmdline Props_Loader Props_Elf Props_Bz Props_Pe Props_Config Vmm_proofs Props_Vmm SpecDecide Props_Decide
  SpecEffect Effect_proofs.

Lemma one_piece m a bs m' : poured m a bs m' -> poured_all m [(a, bs)] m'.
Proof. intros H. exists m'. split; [exact H|apply mem_same_refl]. Qed.

(** ** What a call does to memory *)
Theorem C86_effect : forall bld be t m m' x,
  wf_mem m = true -> task_typed t -> steady be t -> perform bld be t m = (m', x) ->
  exists pieces, tried m t x pieces /\ poured_all m pieces m'.
Proof.
  intros bld be t m m' x Hw Ht Hs H. pose proof (C78_rules_obeyed _ _ _ _ _ _ Hw Ht Hs H) as Hsay.
  destruct t as [off h im|off h im|a off h im|addr im|addr c|p|p|p]; cbn [perform steady task_typed] in *.
  - destruct (elf_load bld be off h im m) as [[r1 m1] o] eqn:E. injection H as <- <-. cbn [tried].
    apply no_trouble_iff in Hs as [N1 N2]. exact (elf_load_pours _ _ _ _ _ _ _ _ _ Ht Hw N1 N2 E).
  - destruct (bz_load be off h im m) as [[r1 m1] o] eqn:E. injection H as <- <-.
    destruct (bz_load_pours _ _ _ _ _ _ _ _ (proj1 Ht) Hw Hs E) as [(-> & N1 & N2)|(P & [(v & ->)|[-> | ->]])].
    + exists []. split; [|apply mem_same_refl]. destruct o as [v|e|q]; [now destruct (N1 v)| |reflexivity].
      destruct e as [e|e|e| | | | | ]; try reflexivity. destruct e; try reflexivity. now destruct N2.
    + eexists. split; [reflexivity|]. now apply one_piece.
    + eexists. split; [reflexivity|]. now apply one_piece.
    + exfalso. inversion Hsay as [|? ? ? ? Hb| | | | | |]; subst. inversion Hb.
  - destruct (pe_load a be off h im m) as [[r1 m1] o] eqn:E. injection H as <- <-.
    pose proof Hs as Hs0. apply no_trouble_iff in Hs as [T1 T2].
    destruct (pe_load_pours _ _ _ _ _ _ _ _ _ Ht Hw T1 T2 E) as [(-> & N1 & N2)|(P & [(v & ->)|[-> | ->]])].
    + exists []. split; [|apply mem_same_refl]. destruct o as [v|e|q]; [now destruct (N1 v)| |reflexivity].
      destruct e as [e|e|e| | | | | ]; try reflexivity. destruct e; try reflexivity. now destruct N2.
    + eexists. split; [reflexivity|]. now apply one_piece.
    + eexists. split; [reflexivity|]. now apply one_piece.
    + exfalso. inversion Hsay as [| |? ? ? ? ? Hb| | | | |]; subst. inversion Hb.
  - destruct (load_dtb be addr im m) as [[r1 m1] o] eqn:E. injection H as <- <-.
    apply no_trouble_iff in Hs as [T1 T2].
    destruct (load_dtb_pours _ _ _ _ _ _ _ Ht Hw T1 T2 E) as [(-> & N1 & N2)|(P & [-> | ->])].
    + exists []. split; [|apply mem_same_refl]. destruct o as [[]|e|q]; [now destruct N1| |reflexivity].
      destruct e as [e|e|e| | | | | ]; try reflexivity. destruct e; try reflexivity. now destruct N2.
    + eexists. split; [reflexivity|]. now apply one_piece.
    + eexists. split; [reflexivity|]. now apply one_piece.
  - destruct (load_cmdline bld be m addr c) as [m1 o] eqn:E. injection H as <- <-.
    destruct (load_cmdline_pours _ _ _ _ _ _ _ Hw E) as [(-> & N1 & N2)|(s & Es & P & [-> | ->])].
    + exists []. split; [|apply mem_same_refl]. destruct o as [[]|e|q]; [now destruct N1| |reflexivity].
      destruct e as [e|e|e| | | | | ]; try reflexivity. now destruct N2.
    + eexists. split; [exists s; split; [exact Es|reflexivity]|]. now apply one_piece.
    + eexists. split; [exists s; split; [exact Es|reflexivity]|]. now apply one_piece.
  - unfold linux_write_bootparams in H. destruct (check_and_write be m (header_start p) (header p) _ _) as [m1 o] eqn:E. injection H as <- <-.
    apply check_and_write_pours in E as (_ & [(-> & ->)|(P & [-> | ->])]); [| | |exact Hw].
    + exists []. split; [reflexivity|apply mem_same_refl].
    + eexists. split; [reflexivity|]. now apply one_piece.
    + eexists. split; [reflexivity|]. now apply one_piece.
  - unfold fdt_write_bootparams in H. destruct (check_and_write be m (header_start p) (header p) _ _) as [m1 o] eqn:E. injection H as <- <-.
    apply check_and_write_pours in E as (_ & [(-> & ->)|(P & [-> | ->])]); [| | |exact Hw].
    + exists []. split; [reflexivity|apply mem_same_refl].
    + eexists. split; [reflexivity|]. now apply one_piece.
    + eexists. split; [reflexivity|]. now apply one_piece.
  - clear Hsay. destruct (pvh_write_bootparams be p m) as [m1 o] eqn:E. injection H as <- <-.
    unfold pvh_write_bootparams in E. unfold tried, pvh_areas.
    destruct (sections p) as [v|]; [|inversion E; subst; exists []; split; [reflexivity|apply mem_same_refl]].
    destruct (sections_start p) as [s|]; [|inversion E; subst; exists []; split; [reflexivity|apply mem_same_refl]].
    destruct (check_and_write be m s v _ _) as [m2 o2] eqn:E2.
    apply check_and_write_pours in E2 as (R2 & [(-> & ->)|(P2 & [-> | ->])]); [| | |exact Hw].
    { inversion E; subst. exists []. split; [reflexivity|apply mem_same_refl]. }
    2:{ inversion E; subst. eexists. split; [exists s, v; auto|]. now apply one_piece. }
    destruct (check_and_write be m2 _ _ _ _) as [m3 o3] eqn:E3.
    apply check_and_write_pours in E3 as (R3 & [(-> & ->)|(P3 & [-> | ->])]); [| | |now rewrite (wf_mem_regions m)].
    { inversion E; subst. eexists. split; [exists s, v; auto|]. now apply one_piece. }
    2:{ inversion E; subst. eexists. split; [exists s, v; auto|]. exists m2. split; [exact P2|]. now apply one_piece. }
    destruct (modules p) as [w|].
    2:{ inversion E; subst. exists [(s, v); (header_start p, header p)]. split; [destruct (modules_start p); reflexivity|].
        exists m2. split; [exact P2|]. now apply one_piece. }
    destruct (modules_start p) as [a|].
    2:{ inversion E; subst. eexists. split; [exists s, v; auto|]. exists m2. split; [exact P2|]. now apply one_piece. }
    destruct (write_slice be m3 w a) as [m4 o4] eqn:E4.
    apply write_pours in E4 as (P4 & Ho4); [|rewrite (wf_mem_regions m); [exact Hw|congruence]].
    destruct Ho4 as [-> | ->]; inversion E; subst; (eexists; split; [reflexivity|]); exists m2; (split; [exact P2|]); exists m3; (split; [exact P3|]); now apply one_piece.
Qed.

(** ** The rules leave one choice of pieces, *)
Lemma elf_tried_det f mp off h m p1 p2 : lenN f <= mp -> elf_tried f mp off h m p1 -> elf_tried f mp off h m p2 -> p1 = p2.
Proof.
  intros Hl.
  assert (D : forall q, ph_fine f mp m off q -> ~ exists e, ph_error f mp m off q e).
  { intros q F (e & X). exact (fine_no_error _ _ _ _ _ _ Hl F X). }
  assert (U : forall pre pre' p p' post post' e e', phdrs_of f = pre ++ p :: post -> phdrs_of f = pre' ++ p' :: post' ->
    Forall (ph_fine f mp m off) pre -> Forall (ph_fine f mp m off) pre' -> ph_error f mp m off p e -> ph_error f mp m off p' e' ->
    pre = pre' /\ p = p' /\ e = e').
  { intros pre pre' p p' post post' e e' E1 E2 F1 F2 B1 B2.
    assert (p = p' /\ pre = pre') as [-> ->].
    { rewrite E1 in E2. clear E1. revert pre' E2 F2. induction pre as [|x pre IH]; intros [|y pre'] E2 F2; cbn in E2; injection E2 as -> E2.
      - auto.
      - exfalso. inversion F2; subst. eapply D; eauto.
      - exfalso. inversion F1; subst. eapply D; eauto.
      - inversion F1; subst. inversion F2; subst. destruct (IH H2 pre' E2 H4) as [-> ->]. auto. }
    split; [reflexivity|]. split; [reflexivity|]. eapply error_det; eassumption. }
  intros [e H|pre p post e S1 E1 F1 B1 C1|pre p post e S1 E1 F1 B1 C1|S1 F1] [e' H'|pre' p' post' e' S2 E2 F2 B2 C2|pre' p' post' e' S2 E2 F2 B2 C2|S2 F2];
    try reflexivity; try (exfalso; eapply start_problem_bad; eassumption).
  - destruct (U _ _ _ _ _ _ _ _ E1 E2 F1 F2 B1 B2) as (-> & -> & ->). reflexivity.
  - exfalso. destruct (U _ _ _ _ _ _ _ _ E1 E2 F1 F2 B1 B2) as (_ & _ & ->). congruence.
  - exfalso. rewrite E1 in F2. apply Forall_app in F2 as [_ F2]. inversion F2; subst. eapply D; eauto.
  - exfalso. destruct (U _ _ _ _ _ _ _ _ E1 E2 F1 F2 B1 B2) as (_ & _ & ->). congruence.
  - destruct (U _ _ _ _ _ _ _ _ E1 E2 F1 F2 B1 B2) as (-> & -> & ->). reflexivity.
  - exfalso. rewrite E1 in F2. apply Forall_app in F2 as [_ F2]. inversion F2; subst. eapply D; eauto.
  - exfalso. rewrite E2 in F1. apply Forall_app in F1 as [_ F1]. inversion F1; subst. eapply D; eauto.
  - exfalso. rewrite E2 in F1. apply Forall_app in F1 as [_ F1]. inversion F1; subst. eapply D; eauto.
Qed.
Theorem C86_one_choice : forall m t x p1 p2, task_typed t -> tried m t x p1 -> tried m t x p2 -> p1 = p2.
Proof.
  intros m t x p1 p2 Ht H1 H2. destruct t as [off h im|off h im|a off h im|addr im|addr c|p|p|p].
  { cbn in H1, H2. eapply elf_tried_det; [|exact H1|exact H2]. now destruct Ht as (_ & Hl & _). }
  all: destruct x as [[v|e|q]|[v|e|q]|[v|e|q]]; cbn [tried] in H1, H2; try congruence.
  all: try (destruct e as [e|e|e| | | | | ]; try congruence; destruct e; congruence).
  1: destruct H1 as (s1 & E1 & ->), H2 as (s2 & E2 & ->); congruence.
  1: destruct e as [e|e|e| | | | | ]; try congruence; destruct H1 as (s1 & E1 & ->), H2 as (s2 & E2 & ->); congruence.
  all: destruct e as [e|e|e| | | ]; try congruence; destruct e; try congruence;
    destruct H1 as (s1 & v1 & E1 & E2 & ->), H2 as (s2 & v2 & E3 & E4 & ->); congruence.
Qed.

(** ... and one memory. *)
Lemma mem_same_trans m1 m2 m3 : mem_same m1 m2 -> mem_same m2 m3 -> mem_same m1 m3.
Proof. intros [R1 B1] [R2 B2]. split; [congruence|]. intros x. now rewrite B2, B1. Qed.
Lemma mem_same_sym m1 m2 : mem_same m1 m2 -> mem_same m2 m1.
Proof. intros [R1 B1]. split; [congruence|]. intros x. now rewrite B1. Qed.
Lemma poured_all_end ws : forall m m1 m2, mem_same m1 m2 -> poured_all m ws m1 -> poured_all m ws m2.
Proof.
  induction ws as [|[a bs] ws IH]; intros m m1 m2 Hs; cbn [poured_all].
  - intros H. exact (mem_same_trans _ _ _ H Hs).
  - intros (n & P & Q). exists n. split; [exact P|]. exact (IH _ _ _ Hs Q).
Qed.
Lemma poured_all_begin ws m m0 m' : mem_same m0 m -> poured_all m ws m' -> poured_all m0 ws m'.
Proof.
  intros Hs. destruct ws as [|[a bs] ws]; cbn [poured_all].
  - intros H. exact (mem_same_trans _ _ _ Hs H).
  - intros (n & (k & K1 & K2 & K3 & K4 & K5) & Q). exists n. split; [|exact Q]. destruct Hs as [R B].
    exists k. split; [exact K1|]. split; [now apply (range_backed_regions m0 m _ _ R)|].
    split; [intros Hk Hb; apply K3; [exact Hk|]; now apply (backed_regions m0 m _ R)|]. split; [congruence|].
    intros x. rewrite K5. now apply put_ext.
Qed.
Lemma poured_all_app p q : forall m m1 m2, poured_all m p m1 -> poured_all m1 q m2 -> poured_all m (p ++ q) m2.
Proof.
  induction p as [|[a bs] p IH]; intros m m1 m2 H1 H2; cbn [poured_all app] in *.
  - exact (poured_all_begin _ _ _ _ H1 H2).
  - destruct H1 as (n & P & Q). exists n. split; [exact P|]. exact (IH _ _ _ Q H2).
Qed.

Lemma poured_all_regions ws : forall m m', poured_all m ws m' -> regions m' = regions m.
Proof.
  induction ws as [|[a bs] ws IH]; intros m m'; cbn [poured_all].
  - intros [R _]. exact R.
  - intros (n & (k & _ & _ & _ & R & _) & Q). rewrite (IH _ _ Q). exact R.
Qed.

(** So report and memory after a call are exactly what the rules say: nothing else is allowed, and what they
    say is what one gets. *)
Theorem C86_contract : forall bld be t m m' x,
  wf_mem m = true -> task_typed t -> steady be t -> perform bld be t m = (m', x) ->
  forall y m2, (exists pieces, says be m t y /\ tried m t y pieces /\ poured_all m pieces m2) <-> y = x /\ mem_same m' m2.
Proof.
  intros bld be t m m' x Hw Ht Hs H y m2.
  destruct (C86_effect _ _ _ _ _ _ Hw Ht Hs H) as (ps & T & P). pose proof (C78_rules_obeyed _ _ _ _ _ _ Hw Ht Hs H) as Y. split.
  - intros (ps2 & Y2 & T2 & P2). assert (y = x) as -> by exact (says_det _ _ _ _ _ Ht Y2 Y). split; [reflexivity|].
    assert (ps2 = ps) as -> by exact (C86_one_choice _ _ _ _ _ Ht T2 T).
    exact (poured_all_det ps m m m' m2 (mem_same_refl m) P P2).
  - intros (-> & S0). exists ps. split; [exact Y|]. split; [exact T|]. exact (poured_all_end _ _ _ _ S0 P).
Qed.

(** ** Sequences of calls *)
Lemma tried_regions m m2 t x ps : regions m2 = regions m -> tried m2 t x ps -> tried m t x ps.
Proof.
  intros R. destruct t; try (intros H; exact H). cbn [tried].
  intros [e H|pre p post e S1 E1 F1 B1 C1|pre p post e S1 E1 F1 B1 C1|S1 F1].
  - now apply et_start with e.
  - refine (et_before _ _ _ _ _ pre p post e S1 E1 _ _ C1).
    + eapply Forall_impl; [|exact F1]. intros q. now apply ph_fine_regions.
    + eapply ph_error_regions; eassumption.
  - refine (et_during _ _ _ _ _ pre p post e S1 E1 _ _ C1).
    + eapply Forall_impl; [|exact F1]. intros q. now apply ph_fine_regions.
    + eapply ph_error_regions; eassumption.
  - apply et_all; [exact S1|]. eapply Forall_impl; [|exact F1]. intros q. now apply ph_fine_regions.
Qed.

Lemma tried_all_det m ts : forall xs p1 p2, Forall task_typed ts -> tried_all m ts xs p1 -> tried_all m ts xs p2 -> p1 = p2.
Proof.
  induction ts as [|t ts IH]; intros [|x xs] p1 p2 Ht; cbn [tried_all]; try tauto; try congruence.
  intros (a1 & b1 & T1 & A1 & ->) (a2 & b2 & T2 & A2 & ->). inversion Ht; subst.
  rewrite (C86_one_choice _ _ _ _ _ H1 T1 T2). f_equal. eapply IH; eassumption.
Qed.

Lemma perform_all_effect bld be m0 ts : forall m m' xs, regions m = regions m0 ->
  wf_mem m = true -> Forall task_typed ts -> Forall (steady be) ts -> perform_all bld be ts m = (m', xs) ->
  exists pieces, tried_all m0 ts xs pieces /\ poured_all m pieces m'.
Proof.
  induction ts as [|t ts IH]; intros m m' xs R Hw Ht Hs H; cbn [perform_all] in H.
  { injection H as <- <-. exists []. split; [reflexivity|apply mem_same_refl]. }
  destruct (perform bld be t m) as [m1 x] eqn:E1. destruct (perform_all bld be ts m1) as [m2 xs2] eqn:E2. injection H as <- <-.
  inversion Ht; subst. inversion Hs; subst. destruct (C86_effect _ _ _ _ _ _ Hw H1 H3 E1) as (p & T & P).
  assert (R1 : regions m1 = regions m).
  { exact (poured_all_regions _ _ _ P). }
  destruct (IH m1 m2 xs2) as (q & T2 & P2); [congruence|now rewrite (wf_mem_regions m)|assumption|assumption|exact E2|].
  exists (p ++ q). split; [|exact (poured_all_app _ _ _ _ _ P P2)].
  exists p, q. split; [exact (tried_regions m0 m t x p R T)|]. split; [exact T2|reflexivity].
Qed.

(** The contract of a whole sequence of calls: the rules, applied to the layout of guest memory at the start, say what
    every call reports and what guest memory holds in the end. *)
Theorem C86_whole_sequences : forall bld be ts m m' xs,
  wf_mem m = true -> Forall task_typed ts -> Forall (steady be) ts -> perform_all bld be ts m = (m', xs) ->
  forall ys m2, (exists pieces, Forall2 (says be m) ts ys /\ tried_all m ts ys pieces /\ poured_all m pieces m2) <->
    ys = xs /\ mem_same m' m2.
Proof.
  intros bld be ts m m' xs Hw Ht Hs H ys m2.
  destruct (C78_whole_sequences _ _ _ _ _ _ Hw Ht Hs H) as (Y & U).
  destruct (perform_all_effect _ _ m _ _ _ _ eq_refl Hw Ht Hs H) as (ps & T & P). split.
  - intros (ps2 & Y2 & T2 & P2). assert (ys = xs) as -> by exact (U _ Y2). split; [reflexivity|].
    assert (ps2 = ps) as -> by exact (tried_all_det _ _ _ _ _ Ht T2 T).
    exact (poured_all_det ps m m m' m2 (mem_same_refl m) P P2).
  - intros (-> & S0). exists ps. split; [exact Y|]. split; [exact T|]. exact (poured_all_end _ _ _ _ S0 P).
Qed.

(** A tree of six bytes at 0xfffd, three bytes before the first region ends: the call fails, and the rules say
    that the first three bytes are in place and nothing else has changed. Then a parameter area whose header
    goes to unmapped memory after the entries have been written. *)
Definition tree : reader := plain_reader [x41; x42; x43; x44; x45; x46].
Definition lost_start : boot_info := mkBoot [x04; x05] 0x20000 (Some [x06; x08]) (Some 0xb100) None None.
Example C86_applies : exists m',
  perform_all true TryAccess [LoadDtb 0xfffd tree; WritePvh lost_start] demo_mem =
    (m', [Done (Err (LPe ReadDtbImage)); Written (Err (BPvh StartInfoPastRamEnd))]) /\
  Forall task_typed [LoadDtb 0xfffd tree; WritePvh lost_start] /\
  Forall (steady TryAccess) [LoadDtb 0xfffd tree; WritePvh lost_start] /\
  (exists pieces, tried_all demo_mem [LoadDtb 0xfffd tree; WritePvh lost_start]
      [Done (Err (LPe ReadDtbImage)); Written (Err (BPvh StartInfoPastRamEnd))] pieces /\
    pieces = [(0xfffd, [x41; x42; x43; x44; x45; x46]); (0xb100, [x06; x08])] /\ poured_all demo_mem pieces m') /\
  map (gm_byte m') [0xfffc; 0xfffd; 0xfffe; 0xffff; 0x10000; 0xb0ff; 0xb100; 0xb101; 0xb102] =
    [xff; x41; x42; x43; xff; xff; x06; x08; xff].
Proof.
  destruct (perform_all true TryAccess [LoadDtb 0xfffd tree; WritePvh lost_start] demo_mem) as [m' xs] eqn:E.
  assert (X : snd (perform_all true TryAccess [LoadDtb 0xfffd tree; WritePvh lost_start] demo_mem) = xs) by now rewrite E.
  vm_compute in X. subst xs. exists m'. split; [reflexivity|].
  assert (Ht : Forall task_typed [LoadDtb 0xfffd tree; WritePvh lost_start]).
  { repeat constructor; cbn [task_typed]; try exact I. apply plain_wf. reflexivity. }
  assert (Hs : Forall (steady TryAccess) [LoadDtb 0xfffd tree; WritePvh lost_start]).
  { repeat apply Forall_cons; try apply Forall_nil; try exact I; cbn [steady]; intros [(i & E0)|[(i & E0)|(E0 & _)]]; discriminate E0. }
  split; [exact Ht|]. split; [exact Hs|]. split.
  - destruct (perform_all_effect _ _ demo_mem _ _ _ _ eq_refl eq_refl Ht Hs E) as (p & T & P).
    exists p. split; [exact T|]. split; [|exact P].
    destruct T as (a & b & -> & (c & d & (s & v & E1 & E2 & ->) & -> & ->) & ->). cbn in E1, E2.
    injection E1 as <-. injection E2 as <-. reflexivity.
  - assert (Y : m' = fst (perform_all true TryAccess [LoadDtb 0xfffd tree; WritePvh lost_start] demo_mem)) by now rewrite E.
    rewrite Y. vm_compute. reflexivity.
Qed.
(** And a sequence of five calls that succeed. *)
Example C86_sequence_applies : exists m' xs pieces,
  perform_all true TryAccess demo_tasks demo_mem = (m', xs) /\ Forall success xs /\
  tried_all demo_mem demo_tasks xs pieces /\ poured_all demo_mem pieces m'.
Proof.
  destruct (perform_all true TryAccess demo_tasks demo_mem) as [m' xs] eqn:E.
  destruct demo_tasks_typed as (Hw & Ht).
  destruct (perform_all_effect _ _ demo_mem _ _ _ _ eq_refl Hw Ht demo_tasks_steady E) as (p & T & P).
  exists m', xs, p. split; [reflexivity|].
  assert (E2 : snd (perform_all true TryAccess demo_tasks demo_mem) = xs) by (now rewrite E). vm_compute in E2. subst xs.
  split; [unfold success; repeat (apply Forall_cons; [eauto|]); apply Forall_nil|]. split; [exact T|exact P].
Qed.
