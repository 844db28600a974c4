(** * Props_Decide: property C78.

    The rules of SpecDecide are obeyed by every call whose image source works, and they leave
    exactly one report to each call. *)
From Verif Require Import Base Base_proofs Io Mem SpecMem Mem_proofs Layout SpecFile File_proofs Text Cmdline SpecCmdline
  Loader Elf SpecElf Elf_proofs2 BzImage SpecBz Bz_proofs Pe SpecPe Pe_proofs BootParams Configurators SpecVmm
  Demo_elf Props_Cmdline Props_Loader Props_Elf Props_Bz Props_Pe Props_Config Vmm_proofs Props_Vmm SpecDecide.


Lemma last_note_unique pre : forall pre' p p' post post',
  pre ++ p :: post = pre' ++ p' :: post' ->
  is_note p = true -> is_note p' = true ->
  (forall q, In q post -> is_note q = false) -> (forall q, In q post' -> is_note q = false) -> p = p'.
Proof.
  induction pre as [|x pre IH]; intros [|y pre'] p p' post post' E P P' N N'; cbn in E; injection E as -> E.
  - reflexivity.
  - subst post. rewrite (N p') in P'; [discriminate|]. apply in_elt.
  - subst post'. rewrite (N' p) in P; [discriminate|]. apply in_elt.
  - exact (IH _ _ _ _ _ E P P' N N').
Qed.

Lemma caps_det f maxpos off ps c1 c2 : caps f maxpos off ps c1 -> caps f maxpos off ps c2 -> c1 = c2.
Proof.
  intros H1 H2. inversion H1 as [ps1 N1 Q1|ps1 k E1 Q1|pre p post v c E1 P1 N1 R1 V1 Q1]; subst ps; subst;
    inversion H2 as [ps' N2 Q2|ps' k' E2 Q2|pre' p' post' v' c' E2 P2 N2 R2 V2 Q2]; subst; try reflexivity; try congruence.
  - rewrite N1 in P2; [discriminate|apply in_elt].
  - rewrite N2 in P1; [discriminate|apply in_elt].
  - assert (p = p') as ->.
    { symmetry. eapply last_note_unique; [exact Q2|assumption..]. }
    pose proof (note_result_det _ _ _ _ _ R1 R2) as ->. congruence.
Qed.

(** The first offending header is unique. *)
Lemma first_error_unique {A} (fine bad : A -> Prop) pre : forall pre' p p' post post',
  (forall x, fine x -> ~ bad x) ->
  pre ++ p :: post = pre' ++ p' :: post' ->
  Forall fine pre -> Forall fine pre' -> bad p -> bad p' -> p = p'.
Proof.
  induction pre as [|x pre IH]; intros [|y pre'] p p' post post' D E F F' B B'; cbn in E; injection E as -> E.
  - reflexivity.
  - inversion F'; subst. exfalso. eapply D; eassumption.
  - inversion F; subst. exfalso. eapply D; eassumption.
  - inversion F; inversion F'; subst. exact (IH _ _ _ _ _ D E ltac:(assumption) ltac:(assumption) B B').
Qed.

Lemma elf_says_det f maxpos off h m o1 o2 : lenN f <= maxpos ->
  elf_says f maxpos off h m o1 -> elf_says f maxpos off h m o2 -> o1 = o2.
Proof.
  intros Hmp H1 H2.
  assert (D : forall q, ph_fine f maxpos m off q -> ~ exists e, ph_error f maxpos m off q e).
  { intros q Hq [e He]. exact (fine_no_error _ _ _ _ _ _ Hmp Hq He). }
  destruct H1 as [e1 P1|pre1 p1 post1 e1 G1 Q1 F1 E1|c1 G1 F1 C1];
    destruct H2 as [e2 P2|pre2 p2 post2 e2 G2 Q2 F2 E2|c2 G2 F2 C2];
    try (exfalso; eapply start_problem_bad; eassumption).
  - pose proof (start_problem_det _ _ _ _ _ _ P1 P2) as ->. reflexivity.
  - rewrite Q1 in Q2.
    assert (p1 = p2) as ->. { eapply (first_error_unique (ph_fine f maxpos m off) (fun q => exists e, ph_error f maxpos m off q e)); eauto. }
    pose proof (error_det _ _ _ _ _ _ _ Hmp E1 E2) as ->. reflexivity.
  - exfalso. rewrite Q1 in F2. apply Forall_app in F2 as [_ F2]. inversion F2 as [|? ? X _]; subst. exact (D _ X (ex_intro _ _ E1)).
  - exfalso. rewrite Q2 in F1. apply Forall_app in F1 as [_ F1]. inversion F1 as [|? ? X _]; subst. exact (D _ X (ex_intro _ _ E2)).
  - pose proof (caps_det _ _ _ _ _ _ C1 C2) as ->. reflexivity.
Qed.

Lemma bz_says_det be f off h m o1 o2 : bz_says be f off h m o1 -> bz_says be f off h m o2 -> o1 = o2.
Proof. intros H1 H2. destruct H1, H2; try contradiction; try lia; reflexivity. Qed.
Lemma pe_says_det a f off m o1 o2 : pe_says a f off m o1 -> pe_says a f off m o2 -> o1 = o2.
Proof.
  intros H1 H2. destruct H1 as [e1 P1|G1 B1|G1 B1], H2 as [e2 P2|G2 B2|G2 B2]; try contradiction; try reflexivity;
    try (exfalso; eapply pe_problem_not_good; eassumption).
  pose proof (pe_problem_det _ _ _ _ _ P1 P2) as ->. reflexivity.
Qed.
Lemma dtb_says_det be f addr m o1 o2 : dtb_says be f addr m o1 -> dtb_says be f addr m o2 -> o1 = o2.
Proof. intros H1 H2. destruct H1, H2; try contradiction; try lia; reflexivity. Qed.

Lemma backed_reaches m a n : range_backed m a (n + 1) -> reaches m (a + n).
Proof. intros H. right. exists (a + n). split; [apply H; lia|lia]. Qed.
Lemma cmdline_says_det c addr m o1 o2 : cmdline_says c addr m o1 -> cmdline_says c addr m o2 -> o1 = o2.
Proof.
  intros H1 H2. destruct H1 as [e1 E1|s1 E1 R1|s1 E1 R1 B1|s1 E1 B1], H2 as [e2 E2|s2 E2 R2|s2 E2 R2 B2|s2 E2 B2];
    try reflexivity; try congruence; assert (s1 = s2) as -> by congruence; try contradiction;
    exfalso; match goal with H : ~ reaches _ _ |- _ => apply H end; now apply backed_reaches.
Qed.
Lemma header_says_det e1 e2 p m o1 o2 : header_says e1 e2 p m o1 -> header_says e1 e2 p m o2 -> o1 = o2.
Proof.
  intros H1 H2. destruct H1 as [B1|B1 N1|B1], H2 as [B2|B2 N2|B2]; try reflexivity; try contradiction;
    exfalso; apply range_backed_more in B1 || apply range_backed_more in B2; tauto.
Qed.

Lemma map_fits_parts p m s v : map_fits p m -> sections_start p = Some s -> sections p = Some v ->
  backed m (s + lenN v) /\ range_backed m s (lenN v).
Proof.
  intros (s' & v' & E1 & E2 & B) E3 E4. assert (s' = s) as -> by congruence. assert (v' = v) as -> by congruence.
  apply range_backed_more in B. tauto.
Qed.
Lemma map_fits_some p m : map_fits p m -> sections p <> None /\ sections_start p <> None.
Proof. intros (s & v & -> & -> & _). split; discriminate. Qed.
Lemma info_fits_parts p m : info_fits p m ->
  backed m (header_start p + lenN (header p)) /\ range_backed m (header_start p) (lenN (header p)).
Proof. intros B. apply range_backed_more in B. tauto. Qed.

Lemma pvh_says_det be p m o1 o2 : pvh_says be p m o1 -> pvh_says be p m o2 -> o1 = o2.
Proof.
  intros H1 H2. destruct H1, H2; try reflexivity; exfalso;
    repeat match goal with
    | X : ?f p = Some ?a, Y : ?f p = Some ?b |- _ => assert (a = b) by congruence; subst b; clear Y
    | X : info_fits p m |- _ => apply info_fits_parts in X as [? ?]
    | X : map_fits p m |- _ => destruct X as (? & ? & ? & ? & X); apply range_backed_more in X as [? ?]
    end; try congruence; try contradiction.
  - match goal with X : forall w, modules p = Some w -> _, Y : modules p = Some _ |- _ => destruct (X _ Y) as (? & ? & _) end. congruence.
  - match goal with X : forall w, modules p = Some w -> _, Y : modules p = Some _ |- _ => destruct (X _ Y) as (a' & E & D) end.
    assert (a' = a) as -> by congruence. contradiction.
  - match goal with X : forall w, modules p = Some w -> _, Y : modules p = Some _ |- _ => destruct (X _ Y) as (? & ? & _) end. congruence.
  - match goal with X : forall w, modules p = Some w -> _, Y : modules p = Some _ |- _ => destruct (X _ Y) as (a' & E & D) end.
    assert (a' = a) as -> by congruence. contradiction.
Qed.

(** ** The rules are obeyed. *)
Lemma elf_obeys bld be off h im m m' x : wf_mem m = true -> wf_reader im -> ~ io_trouble be im ->
  perform bld be (LoadElf off h im) m = (m', x) -> says be m (LoadElf off h im) x.
Proof.
  intros Hw Hr Hn H. cbn [perform] in H. destruct (elf_load bld be off h im m) as [[r' m1] o] eqn:E. injection H as <- <-.
  assert (R : runs bld be off h im m m1 o) by (split; [exact Hr|split; [exact Hw|eauto]]).
  constructor. use_spec R. post_cases Hpost.
  - subst o. now apply es_loaded.
  - subst o. now apply es_start.
  - subst o. eapply es_segment; eassumption.
  - contradiction.
Qed.

Lemma bz_header_dec f : bz_header_good f \/ ~ bz_header_good f.
Proof.
  unfold bz_header_good. destruct (N.eq_dec (bz_magic f) 0x53726448); [|right; tauto].
  destruct (N.le_gt_cases 0x200 (bz_version f)); [|right; lia].
  destruct (N.eq_dec (bz_loadflags f mod 2) 1); [auto|right; tauto].
Qed.
Lemma bz_highmem_dec f h : bz_highmem_ok f h \/ ~ bz_highmem_ok f h.
Proof. destruct h as [h|]; cbn; [destruct (N.le_gt_cases h (bz_code32_start f)); [auto|right; lia]|auto]. Qed.

Lemma bz_obeys bld be off h im m m' x : wf_mem m = true -> task_typed (LoadBz off h im) -> ~ short_or_fault im ->
  perform bld be (LoadBz off h im) m = (m', x) -> says be m (LoadBz off h im) x.
Proof.
  intros Hw Hr Hn H. cbn [perform] in H. destruct (bz_load be off h im m) as [[r' m1] o] eqn:E. injection H as <- <-.
  destruct Hr as (T1 & T2 & T3).
  assert (R : bz_runs be off h im m m1 o).
  { split; [exact T1|]. split; [exact T2|]. split; [exact Hw|]. split; [exact T3|]. eauto. }
  assert (Hs : ~ short_reads im) by (intros S0; apply Hn; now right).
  constructor. pose proof (C34_bz_accepts_iff _ _ _ _ _ _ _ R Hn) as A. cbv zeta in A.
  pose proof (C37_bz_error_kind _ _ _ _ _ _ _ R Hn) as (K1 & K2 & K3 & _). cbv zeta in K1, K2, K3.
  change bz_payload with payload in A.
  destruct o as [res|e|q].
  - destruct (proj1 A (ex_intro _ _ eq_refl)) as (G & L & Hh & D).
    pose proof (C35_bz_payload_placed _ _ _ _ _ _ _ R) as (_ & _ & _ & X2 & _ & X3 & _ & X1). specialize (X1 Hs).
    change bz_payload with payload in X2.
    destruct (bz_ok_header _ _ _ _ _ _ _ R) as (k & [-> |Hk] & _ & _ & _ & X4); [|contradiction].
    rewrite header_got_full in X4; [|pose proof (setup_size_min (rd_data im)); lia|lia].
    destruct res as [kl ke hd cap]. cbn [kernel_load kernel_end result_header pvh_boot_cap] in *.
    subst kl ke hd cap. now apply bs_loaded.
  - destruct (bz_header_dec (rd_data im)) as [G|G]; [|destruct (K1 G) as [-> _]; now apply bs_header].
    destruct (N.lt_ge_cases (lenN (rd_data im)) (bz_setup_size (rd_data im))) as [L|L].
    { destruct (K2 G L) as [-> _]. now apply bs_short. }
    destruct (bz_highmem_dec (rd_data im) h) as [Hh|Hh]; [|destruct (K3 G L Hh) as [-> _]; now apply bs_low].
    assert (D : ~ dest_ok be m (bz_load_addr (rd_data im) off) (lenN (payload (rd_data im)))).
    { intros D. destruct (proj2 A) as [res X]; [auto|discriminate]. }
    pose proof (C37_bz_error_kind _ _ _ _ _ _ _ R Hn) as (_ & _ & _ & K4). cbv zeta in K4.
    rewrite (K4 G L Hh D). now apply bs_place.
  - exfalso. exact (proj1 (C37_bz_errors_frame _ _ _ _ _ _ _ R) q eq_refl).
Qed.

Lemma pe_obeys bld be a off h im m m' x : wf_mem m = true -> wf_reader im -> ~ io_trouble be im ->
  perform bld be (LoadPe a off h im) m = (m', x) -> says be m (LoadPe a off h im) x.
Proof.
  intros Hw Hr Hn H. cbn [perform] in H. destruct (pe_load a be off h im m) as [[r' m1] o] eqn:E. injection H as <- <-.
  assert (R : pe_runs a be off h im m m1 o) by (split; [exact Hr|split; [exact Hw|eauto]]).
  constructor. destruct (pe_good_or_problem a (rd_data im) off) as [G|[e P]].
  2:{ destruct (C40_pe_rejects _ _ _ _ _ _ _ _ _ R P) as (_ & _ & X). rewrite (X Hn). now apply ps_problem. }
  pose proof (C41_pe_accepts_iff _ _ _ _ _ _ _ _ R Hn) as A. cbv zeta in A.
  destruct o as [res|e|q].
  - destruct (proj1 A (ex_intro _ _ eq_refl)) as (_ & _ & _ & B).
    pose proof (C39_pe_placement _ _ _ _ _ _ _ _ R) as (X1 & X2 & _ & X3 & X4 & _).
    destruct res as [kl ke hd cap]. cbn [kernel_load kernel_end result_header pvh_boot_cap] in *.
    subst ke kl hd cap. now apply ps_loaded.
  - assert (B : ~ range_backed m (pe_load_addr a (rd_data im) off) (lenN (rd_data im))).
    { intros B. destruct (proj2 A) as [res X]; [|discriminate]. destruct G as (G1 & G2 & G3 & G4).
      split; [exact G1|]. split; [exact G2|]. split; [|exact B]. destruct off; [exact G3|exact I]. }
    rewrite (C41_pe_unbacked _ _ _ _ _ _ _ _ R Hn G B). now apply ps_place.
  - exfalso. exact (proj1 (C40_pe_errors_frame _ _ _ _ _ _ _ _ R) q eq_refl).
Qed.

Lemma dtb_obeys bld be addr im m m' x : wf_mem m = true -> wf_reader im -> ~ io_trouble be im ->
  perform bld be (LoadDtb addr im) m = (m', x) -> says be m (LoadDtb addr im) x.
Proof.
  intros Hw Hr Hn H. cbn [perform] in H. destruct (load_dtb be addr im m) as [[r' m1] o] eqn:E. injection H as <- <-.
  assert (R : dtb_runs be addr im m m1 o) by (split; [exact Hr|split; [exact Hw|eauto]]).
  constructor. destruct (N.lt_ge_cases (2 * 1024 * 1024) (lenN (rd_data im))) as [L|L].
  { destruct (C42_dtb_too_big _ _ _ _ _ _ R L) as (_ & _ & X). rewrite (X Hn). now apply ds_big. }
  pose proof (C42_dtb_accepts_iff _ _ _ _ _ _ R Hn) as A. destruct o as [[]|e|q].
  - apply ds_loaded; [exact L|]. now apply A.
  - assert (D : ~ dest_ok be m addr (lenN (rd_data im))).
    { intros D. assert (Err e = Ok tt) by (apply A; auto). discriminate. }
    rewrite (C42_dtb_unbacked _ _ _ _ _ _ R Hn L D). now apply ds_place.
  - exfalso. exact (proj2 (C42_dtb_frame _ _ _ _ _ _ R) q eq_refl).
Qed.

Lemma reaches_last m x : wf_mem m = true -> (reaches m x <-> x <= last_addr m).
Proof.
  intros Hw. split.
  - intros [-> |(y & B & L)]; [lia|]. pose proof (last_addr_backed m y B). lia.
  - intros L. destruct (regions m) as [|r0 rs] eqn:R.
    + left. unfold last_addr in L. rewrite R in L. cbn in L. lia.
    + right. exists (last_addr m). split; [|exact L]. apply last_addr_attained; [rewrite R; discriminate|exact Hw].
Qed.

Lemma cmdline_obeys bld be addr c m m' x : wf_mem m = true ->
  perform bld be (LoadCmdline addr c) m = (m', x) -> says be m (LoadCmdline addr c) x.
Proof.
  intros Hw H. cbn [perform] in H. destruct (load_cmdline bld be m addr c) as [m1 o] eqn:E. injection H as <- <-. constructor.
  pose proof (C19_load_cmdline_exact _ _ _ _ _ _ _ Hw E) as A.
  pose proof (load_cmdline_cases _ _ _ _ _ _ _ Hw E) as [(e & Ec & -> & _)|(s & Es & [(L & -> & _)|(L1 & L2 & W & Ho)])].
  - now apply cs_text with e.
  - apply cs_past with s; [exact Es|]. intros [R|(y & B & R)].
    + destruct L as [L|L]; [unfold two64 in L|]; lia.
    + pose proof (backed_bound m y Hw B). pose proof (last_addr_backed m y B). destruct L; lia.
  - destruct Ho as [-> | ->].
    + destruct (proj1 A eq_refl) as (s' & Es' & B). assert (s' = s) as -> by congruence. now apply cs_loaded with s.
    + apply cs_hole with s; [exact Es|now apply reaches_last|].
      intros B. assert (@Err lerror unit CommandLineCopy = Ok tt) as X by (apply A; eauto). discriminate X.
Qed.

Lemma header_obeys be w e1 e2 p m m' o : one_header_write be w e1 e2 -> wf_mem m = true -> w be p m = (m', o) ->
  header_says e1 e2 p m o.
Proof.
  intros Hp Hw H. destruct (Hp _ _ _ _ Hw H) as (_ & A1 & A2 & _ & A3 & [-> |[-> | ->]] & _).
  - apply hs_written. now apply A1.
  - apply hs_past. now apply A2.
  - apply hs_hole; now apply A3.
Qed.

Lemma pvh_obeys be p m m' o : wf_mem m = true -> pvh_write_bootparams be p m = (m', o) -> pvh_says be p m o.
Proof.
  intros Hw H. apply pvh_cases in H; [|exact Hw].
  destruct H as [(E1 & -> & _)|(v & E1 & [(E2 & -> & _)|(s & E2 & H)])].
  { now apply vs_no_map. }
  { now apply vs_no_map_addr with v. }
  destruct H as [(B & -> & _)|[(B1 & B2 & -> & _)|(B & H)]].
  { now apply vs_map_past with s v. }
  { now apply vs_map_hole with s v. }
  assert (M : map_fits p m) by (exists s, v; auto). cbv zeta in H.
  destruct H as [(B1 & -> & _)|[(B1 & B2 & -> & _)|(B1 & H)]].
  { now apply vs_info_past. }
  { now apply vs_info_hole. }
  destruct H as [(E3 & -> & _)|(w & E3 & [(E4 & -> & _)|(a & E4 & [(D & -> & _)|(D & -> & _)])])].
  - apply vs_written; [exact M|exact B1|]. intros w E. congruence.
  - now apply vs_no_modules_addr with w.
  - now apply vs_modules_hole with a w.
  - apply vs_written; [exact M|exact B1|]. intros w' E. assert (w' = w) as -> by congruence. eauto.
Qed.

(** ** C78 *)
Theorem C78_rules_obeyed : forall bld be t m m' x,
  wf_mem m = true -> task_typed t -> steady be t -> perform bld be t m = (m', x) -> says be m t x.
Proof.
  intros bld be t m m' x Hw Ht Hs H. destruct t as [off h im|off h im|a off h im|addr im|addr c|p|p|p].
  - exact (elf_obeys _ _ _ _ _ _ _ _ Hw Ht Hs H).
  - exact (bz_obeys _ _ _ _ _ _ _ _ Hw Ht Hs H).
  - exact (pe_obeys _ _ _ _ _ _ _ _ _ Hw Ht Hs H).
  - exact (dtb_obeys _ _ _ _ _ _ _ Hw Ht Hs H).
  - exact (cmdline_obeys _ _ _ _ _ _ _ Hw H).
  - cbn [perform] in H. destruct (linux_write_bootparams be p m) as [m1 o] eqn:E. injection H as <- <-. constructor.
    exact (header_obeys _ _ _ _ _ _ _ _ (C43_linux_write be) Hw E).
  - cbn [perform] in H. destruct (fdt_write_bootparams be p m) as [m1 o] eqn:E. injection H as <- <-. constructor.
    exact (header_obeys _ _ _ _ _ _ _ _ (C43_fdt_write be) Hw E).
  - cbn [perform] in H. destruct (pvh_write_bootparams be p m) as [m1 o] eqn:E. injection H as <- <-. constructor.
    exact (pvh_obeys _ _ _ _ _ Hw E).
Qed.

Lemma says_det be m t x y : task_typed t -> says be m t x -> says be m t y -> x = y.
Proof.
  intros Ht H1 H2. destruct t; inversion H1; inversion H2; subst; f_equal.
  - apply elf_says_det with (rd_data image) (rd_maxpos image) off highmem m; [apply Ht|assumption..].
  - eapply bz_says_det; eassumption.
  - eapply pe_says_det; eassumption.
  - eapply dtb_says_det; eassumption.
  - eapply cmdline_says_det; eassumption.
  - eapply header_says_det; eassumption.
  - eapply header_says_det; eassumption.
  - eapply pvh_says_det; eassumption.
Qed.

(** The same image from a source without faults. *)
Definition calm (r : reader) : reader := mkReader (rd_data r) 0 (rd_maxpos r) (fun _ => 2 ^ 63) (fun _ _ => false) 0.
Definition calm_task (t : task) : task :=
  match t with
  | LoadElf off h im => LoadElf off h (calm im)
  | LoadBz off h im => LoadBz off h (calm im)
  | LoadPe a off h im => LoadPe a off h (calm im)
  | LoadDtb addr im => LoadDtb addr (calm im)
  | _ => t
  end.
Lemma calm_io be r : wf_reader r -> ~ io_trouble be (calm r).
Proof. intros (L & _) [(i & E)|[(i & E)|(_ & i & E)]]; cbn in E; [discriminate|discriminate|]. cbn [rd_data calm] in E. lia. Qed.
Lemma calm_short r : wf_reader r -> ~ short_or_fault (calm r).
Proof. intros (L & _) [(k & i & E)|(i & E)]; cbn in E; [discriminate|lia]. Qed.
Lemma calm_says be m t x : says be m (calm_task t) x -> says be m t x.
Proof. destruct t; cbn [calm_task]; intros H; inversion H; subst; now constructor. Qed.

(** Every call has exactly one report under the rules. *)
Theorem C78_one_report : forall be t m,
  wf_mem m = true -> task_typed t -> exists x, says be m t x /\ forall y, says be m t y -> y = x.
Proof.
  intros be t m Hw Ht. destruct (perform true be (calm_task t) m) as [m' x] eqn:E. exists x.
  assert (H : says be m t x).
  { apply calm_says. apply (C78_rules_obeyed true be _ m m'); [exact Hw| | |exact E].
    - destruct t; exact Ht.
    - destruct t as [off h im|off h im|a off h im|addr im| | | | ]; cbn; try exact I;
        try (apply calm_io; exact Ht). apply calm_short. apply Ht. }
  split; [exact H|]. intros y Hy. exact (says_det _ _ _ _ _ Ht Hy H).
Qed.

(** So the crate's report is the one and only report the rules allow. *)
Theorem C78_report_iff : forall bld be t m m' x,
  wf_mem m = true -> task_typed t -> steady be t -> perform bld be t m = (m', x) ->
  forall y, says be m t y <-> y = x.
Proof.
  intros bld be t m m' x Hw Ht Hs H y. pose proof (C78_rules_obeyed _ _ _ _ _ _ Hw Ht Hs H) as X. split.
  - intros Y. exact (says_det _ _ _ _ _ Ht Y X).
  - intros ->. exact X.
Qed.

(** The rules look at which addresses exist, never at what they hold. *)
Lemma says_regions be m m2 t x : wf_mem m = true -> task_typed t -> regions m2 = regions m ->
  says be m t x -> says be m2 t x.
Proof.
  intros Hw Ht R H. assert (Hw2 : wf_mem m2 = true) by (now rewrite (wf_mem_regions m m2 R)).
  assert (Ht' : task_typed (calm_task t)) by (destruct t; exact Ht).
  assert (Hs : steady be (calm_task t)).
  { destruct t as [off h im|off h im|a off h im|addr im| | | | ]; cbn; try exact I; try (apply calm_io; exact Ht).
    apply calm_short. apply Ht. }
  destruct (perform true be (calm_task t) m) as [m' y] eqn:E. destruct (perform true be (calm_task t) m2) as [m2' y2] eqn:E2.
  pose proof (calm_says _ _ _ _ (C78_rules_obeyed _ _ _ _ _ _ Hw Ht' Hs E)) as Y.
  pose proof (calm_says _ _ _ _ (C78_rules_obeyed _ _ _ _ _ _ Hw2 Ht' Hs E2)) as Y2.
  destruct (C57_contents_irrelevant _ _ _ _ _ _ _ _ _ (eq_sym R) E E2) as (-> & _).
  pose proof (says_det _ _ _ _ _ Ht H Y) as ->. exact Y2.
Qed.

(** In a sequence of calls the reports of all of them can be told in advance, from the guest
    memory layout at the start. *)
Theorem C78_whole_sequences : forall bld be ts m m' xs,
  wf_mem m = true -> Forall task_typed ts -> Forall (steady be) ts -> perform_all bld be ts m = (m', xs) ->
  Forall2 (says be m) ts xs /\ forall ys, Forall2 (says be m) ts ys -> ys = xs.
Proof.
  intros bld be ts m m' xs Hw Ht Hs H.
  assert (X : Forall2 (says be m) ts xs).
  { assert (G : forall ts0 m0 m1 xs0, regions m0 = regions m -> Forall task_typed ts0 -> Forall (steady be) ts0 ->
              perform_all bld be ts0 m0 = (m1, xs0) -> Forall2 (says be m) ts0 xs0).
    2:{ exact (G ts m m' xs eq_refl Ht Hs H). }
    clear ts m' xs Ht Hs H. induction ts0 as [|t ts IH]; intros m0 m2 xs R Ht Hs H; cbn [perform_all] in H.
    - injection H as <- <-. constructor.
    - inversion Ht as [|? ? Ht1 Ht2]; subst. inversion Hs as [|? ? Hs1 Hs2]; subst.
      destruct (perform bld be t m0) as [m1 x] eqn:E. destruct (perform_all bld be ts m1) as [m3 ys] eqn:E2. injection H as <- <-.
      assert (Hw0 : wf_mem m0 = true) by (now rewrite (wf_mem_regions m m0 R)).
      constructor.
      + apply (says_regions be m0 m t x Hw0 Ht1 (eq_sym R)). exact (C78_rules_obeyed _ _ _ _ _ _ Hw0 Ht1 Hs1 E).
      + apply (IH m1 m3 ys); [|exact Ht2|exact Hs2|exact E2].
        destruct (C56_frame _ _ _ _ _ _ Hw0 Ht1 E) as ((R1 & _) & _). congruence. }
  split; [exact X|]. clear H Hs. revert xs X. induction Ht as [|t ts Ht1 Ht2 IH]; intros xs X ys Y.
  - inversion X; inversion Y; subst. reflexivity.
  - inversion X; inversion Y; subst. f_equal; [eapply says_det; eassumption|]. apply IH; assumption.
Qed.

Example demo_tasks_steady : Forall (steady TryAccess) demo_tasks.
Proof.
  repeat apply Forall_cons; try apply Forall_nil; try exact I; cbn [steady];
    intros [(i & E)|[(i & E)|(E & _)]]; discriminate E.
Qed.
(** What the rules say, worked out by hand for a refused call of every kind, and through the
    theorem for a whole successful sequence. *)
Example C78_applies :
  says TryAccess demo_mem (LoadElf None None (plain_reader (zeros 63))) (Loaded (Err (LElf ReadElfHeader))) /\
  says TryAccess demo_mem (LoadBz None None (plain_reader (zeros 2000))) (Loaded (Err (LBz InvalidBzImage))) /\
  says TryAccess demo_mem (LoadPe Aarch64 None None (plain_reader (zeros 64))) (Loaded (Err (LPe InvalidImageMagicNumber))) /\
  says TryAccess demo_mem (LoadDtb 0x10000 (plain_reader (zeros 1))) (Done (Err (LPe ReadDtbImage))) /\
  says TryAccess demo_mem (LoadCmdline 0x1000fff (mkCmdline (txt "a") [] 20)) (Done (Err CommandLineOverflow)) /\
  says TryAccess demo_mem (LoadCmdline 0xffff (mkCmdline (txt "a") [] 20)) (Done (Err CommandLineCopy)) /\
  says TryAccess demo_mem (WriteLinux (mkBoot [x00] 0xffff None None None None)) (Written (Err (BLinux ZeroPagePastRamEnd))) /\
  says TryAccess demo_mem (WritePvh demo_hdr) (Written (Err (BPvh MemmapTableMissing))).
Proof.
  assert (B : forall x, backed demo_mem x <-> x < 0x10000 \/ 0x1000000 <= x < 0x1001000).
  { intros x. split.
    - intros (r & [<-|[<-|[]]] & L & U); cbn in L, U; lia.
    - intros [L|L]; [exists (mkRegion 0 0x10000)|exists (mkRegion 0x1000000 0x1000)]; (split; [cbn; auto|cbn; lia]). }
  split. { apply say_elf, es_start, sp_header, hp_short. vm_compute. reflexivity. }
  split. { apply say_bz, bs_header. intros (M & _). vm_compute in M. discriminate. }
  split. { apply say_pe, ps_problem, pp_magic; [vm_compute; discriminate|]. intros M. vm_compute in M. discriminate. }
  split. { apply say_dtb, ds_place; [vm_compute; discriminate|]. intros (R & _). specialize (R 0x10000). rewrite B in R.
           change (lenN (rd_data (plain_reader (zeros 1)))) with 1 in R. lia. }
  split. { apply say_cmdline, cs_past with [x61]; [reflexivity|]. intros [R|(y & By & R)]; [discriminate R|]. apply B in By.
           change (lenN [x61]) with 1 in R. lia. }
  split. { apply say_cmdline, cs_hole with [x61]; [reflexivity| |].
           - right. exists 0x1000000. rewrite B. change (lenN [x61]) with 1. lia.
           - intros R. specialize (R 0x10000). rewrite B in R. change (lenN [x61]) with 1 in R. lia. }
  split. { apply say_linux, hs_past. rewrite B. cbn [header_start header]. change (lenN [x00]) with 1. lia. }
  apply say_pvh, vs_no_map. reflexivity.
Qed.
Example C78_sequence_applies : exists r1 r2 r3 r4 r5,
  Forall2 (says TryAccess demo_mem) demo_tasks [r1; r2; r3; r4; r5] /\
  r1 = Loaded (Ok (mkResult 0x1000100 0x1000020 None (PvhEntryPresent 0x1000040))).
Proof.
  destruct (perform_all true TryAccess demo_tasks demo_mem) as [m' xs] eqn:E.
  destruct demo_tasks_typed as (Hw & Ht).
  pose proof (proj1 (C78_whole_sequences _ _ _ _ _ _ Hw Ht demo_tasks_steady E)) as X.
  assert (E2 : snd (perform_all true TryAccess demo_tasks demo_mem) = xs) by (now rewrite E). vm_compute in E2. subst xs.
  eexists _, _, _, _, _. split; [exact X|reflexivity].
Qed.
