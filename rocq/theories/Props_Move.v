(** * Props_Move: properties C101 to C103.

    More guest memory never hurts; a call for a place further up does the same thing further up; the two ways
    vm-memory moves bytes and the two build profiles agree. *)
From Verif Require Import Base Base_proofs Io Mem SpecMem Mem_proofs Layout SpecFile File_proofs Text Cmdline SpecCmdline
  Loader Elf SpecElf Elf_proofs2 BzImage SpecBz Bz_proofs Pe SpecPe Pe_proofs BootParams Configurators SpecVmm
  Demo_elf Props_Cmdline Props_Loader Props_Elf Props_Bz Props_Pe Props_Config Vmm_proofs Props_Vmm SpecDecide Props_Decide
  SpecEffect Effect_proofs Props_Effect SpecMove.

(** ** C101 *)
Lemma larger_range m1 m2 a n : larger_guest m1 m2 -> range_backed m1 a n -> range_backed m2 a n.
Proof. intros L H x H1 H2. apply L, H; assumption. Qed.
Lemma larger_dest be m1 m2 a n : larger_guest m1 m2 -> dest_ok be m1 a n -> dest_ok be m2 a n.
Proof. intros L [H1 H2]. split; [eapply larger_range; eassumption|]. intros Hn Hb. apply L, H2; assumption. Qed.
Lemma larger_fine m1 m2 f mp off p : larger_guest m1 m2 -> ph_fine f mp m1 off p -> ph_fine f mp m2 off p.
Proof.
  intros L H. destruct H as [H1 H2 H3 H4|v c H1 H2 H3 H4 H5|k H1 H2 H3|H1 H2].
  - apply pf_load; try assumption. eapply larger_range; eassumption.
  - eapply pf_note; eassumption.
  - eapply pf_note_ignored; eassumption.
  - apply pf_other; assumption.
Qed.

Lemma larger_says be m1 m2 t x : larger_guest m1 m2 -> success x -> says be m1 t x -> says be m2 t x.
Proof.
  intros L S H. destruct H as [off h im o H|off h im o H|a off h im o H|addr im o H|addr c o H|p o H|p o H|p o H];
    constructor; destruct S as [(res & Hs)|[Hs|Hs]]; try discriminate Hs; injection Hs as Hs; subst o.
  - inversion H as [| |c H1 H2 H3 H4]; subst. constructor; [assumption| |assumption].
    eapply Forall_impl; [|exact H2]. intros p. apply larger_fine; assumption.
  - inversion H; subst. constructor; try assumption. eapply larger_dest; eassumption.
  - inversion H; subst. constructor; try assumption. eapply larger_range; eassumption.
  - inversion H; subst. constructor; try assumption. eapply larger_dest; eassumption.
  - inversion H; subst. econstructor; [eassumption|]. eapply larger_range; eassumption.
  - inversion H; subst. constructor. eapply larger_range; eassumption.
  - inversion H; subst. constructor. eapply larger_range; eassumption.
  - inversion H as [| | | | | | | |H1 H2 H3]; subst. constructor.
    + destruct H1 as (s & v & H4 & H5 & H6). exists s, v. split; [assumption|]. split; [assumption|].
      eapply larger_range; eassumption.
    + eapply larger_range; eassumption.
    + intros w Hw. destruct (H3 w Hw) as (a & Ha & Hd). exists a. split; [assumption|]. eapply larger_dest; eassumption.
Qed.

Theorem C101_more_memory : forall bld be t m1 m2 m1' m2' x1 x2,
  wf_mem m1 = true -> wf_mem m2 = true -> larger_guest m1 m2 -> task_typed t -> steady be t ->
  perform bld be t m1 = (m1', x1) -> success x1 -> perform bld be t m2 = (m2', x2) ->
  x2 = x1 /\ mem_is_overlay m2 m2' (writes t x1) /\ mem_is_overlay m1 m1' (writes t x1).
Proof.
  intros bld be t m1 m2 m1' m2' x1 x2 W1 W2 L T S P1 X1 P2.
  pose proof (C78_rules_obeyed _ _ _ _ _ _ W1 T S P1) as R1.
  pose proof (C78_rules_obeyed _ _ _ _ _ _ W2 T S P2) as R2.
  pose proof (larger_says _ _ _ _ _ L X1 R1) as R3.
  pose proof (says_det _ _ _ _ _ T R2 R3) as Hx. split; [exact Hx|]. subst x2.
  split; eapply C56_success_writes; eassumption.
Qed.

Lemma larger_regions m1 m2 m1' m2' : regions m1' = regions m1 -> regions m2' = regions m2 -> larger_guest m1 m2 ->
  larger_guest m1' m2'.
Proof. intros E1 E2 L x. unfold larger_guest, backed in *. rewrite E1, E2. apply L. Qed.
Lemma wf_regions m m' : regions m' = regions m -> wf_mem m = true -> wf_mem m' = true.
Proof. unfold wf_mem. intros ->. trivial. Qed.

Theorem C101_whole_sequences : forall bld be ts m1 m2 m1' m2' xs1 xs2,
  wf_mem m1 = true -> wf_mem m2 = true -> larger_guest m1 m2 -> Forall task_typed ts -> Forall (steady be) ts ->
  perform_all bld be ts m1 = (m1', xs1) -> Forall success xs1 -> perform_all bld be ts m2 = (m2', xs2) ->
  xs2 = xs1 /\ mem_is_overlay m2 m2' (all_writes ts xs1).
Proof.
  intros bld be ts. induction ts as [|t ts IH]; intros m1 m2 m1' m2' xs1 xs2 W1 W2 L T S P1 X1 P2.
  - cbn in P1, P2. injection P1 as <- <-. injection P2 as <- <-. split; [reflexivity|]. apply overlay_refl.
  - cbn [perform_all] in P1, P2.
    destruct (perform bld be t m1) as [ma xa] eqn:A1. destruct (perform_all bld be ts ma) as [mb xb] eqn:B1.
    destruct (perform bld be t m2) as [mc xc] eqn:A2. destruct (perform_all bld be ts mc) as [md xd] eqn:B2.
    injection P1 as <- <-. injection P2 as <- <-.
    inversion T as [|? ? T1 T2]; subst. inversion S as [|? ? S1 S2]; subst. inversion X1 as [|? ? X2 X3]; subst.
    destruct (C101_more_memory _ _ _ _ _ _ _ _ _ W1 W2 L T1 S1 A1 X2 A2) as (-> & O2 & O1).
    destruct (IH ma mc mb md xb xd) as (-> & O3); try assumption.
    + eapply wf_regions; [apply O1|assumption].
    + eapply wf_regions; [apply O2|assumption].
    + eapply larger_regions; [apply O1|apply O2|assumption].
    + split; [reflexivity|]. cbn [all_writes]. eapply overlay_trans; eassumption.
Qed.

(** ** C102 *)
Lemma moved_range d m1 m2 a n : guest_moved d m1 m2 -> (range_backed m1 a n <-> range_backed m2 (a + d) n).
Proof.
  intros [B _]. split; intros H x H1 H2.
  - replace x with (x - d + d) by lia. apply B, H; lia.
  - apply B, H; lia.
Qed.
Lemma moved_range_ex d m1 m2 a b n : guest_moved d m1 m2 -> b = a + d -> (range_backed m1 a n <-> range_backed m2 b n).
Proof. intros G ->. apply moved_range; assumption. Qed.
Lemma moved_up d m1 m2 a b n : guest_moved d m1 m2 -> b = a + d -> range_backed m1 a n -> range_backed m2 b n.
Proof. intros G E. apply (moved_range_ex d m1 m2 a b n G E). Qed.
Lemma moved_down d m1 m2 a b n : guest_moved d m1 m2 -> b = a + d -> range_backed m2 b n -> range_backed m1 a n.
Proof. intros G E. apply (moved_range_ex d m1 m2 a b n G E). Qed.
Lemma moved_backed d m1 m2 a b : guest_moved d m1 m2 -> b = a + d -> (backed m1 a <-> backed m2 b).
Proof. intros [B _] ->. apply B. Qed.
Lemma moved_dest be d m1 m2 a b n : guest_moved d m1 m2 -> b = a + d -> (dest_ok be m1 a n <-> dest_ok be m2 b n).
Proof.
  intros G E. unfold dest_ok. rewrite (moved_range_ex d m1 m2 a b n G E), (moved_backed d m1 m2 a b G E). reflexivity.
Qed.
Lemma moved_reaches d m1 m2 x : (exists y, backed m1 y) -> guest_moved d m1 m2 -> (reaches m1 x <-> reaches m2 (x + d)).
Proof.
  intros (y0 & Hy0) [B _]. split.
  - intros [-> |(y & H1 & H2)]; right; [exists (y0 + d)|exists (y + d)]; (split; [apply B; assumption|lia]).
  - intros [H|(y & H1 & H2)]; [left; lia|]. right. exists (y - d). split; [|lia].
    apply B. replace (y - d + d) with y by lia. assumption.
Qed.

Section MovedElf.
Variables (f : bytes) (mp d k : N) (m1 m2 : gmem).
Hypothesis G : guest_moved d m1 m2.
Lemma moved_fine p :
  (is_load p = true -> k + ph_paddr p + ph_memsz p < 2 ^ 64 -> k + ph_paddr p + ph_memsz p + d < 2 ^ 64) ->
  ph_fine f mp m1 (Some k) p -> ph_fine f mp m2 (Some (k + d)) p.
Proof.
  intros R H. destruct H as [H1 H2 H3 H4|v c H1 H2 H3 H4 H5|k' H1 H2 H3|H1 H2].
  - apply pf_load; try assumption; cbn [base_of] in *.
    + eapply moved_up; [exact G| |exact H3]. lia.
    + specialize (R H1 H4). change (2 ^ 64) with two64 in *. lia.
  - discriminate H3.
  - eapply pf_note_ignored; [assumption..|reflexivity].
  - apply pf_other; assumption.
Qed.
Lemma moved_ph_error p e :
  (is_load p = true -> k + ph_paddr p < 2 ^ 64 -> k + ph_paddr p + d < 2 ^ 64) ->
  ph_error f mp m1 (Some k) p e -> ph_error f mp m2 (Some (k + d)) p e.
Proof.
  intros R H. destruct H as [H1 H2|H1 H2 H3|H1 H2 H3 H4|H1 H2 H3 H4 H5|e H1 H2 H3 H4]; cbn [base_of] in *.
  - apply pe_seek; assumption.
  - apply pe_addr; try assumption. cbn [base_of]. change (2 ^ 64) with two64 in *. lia.
  - specialize (R H1 H3). apply pe_read; try assumption; cbn [base_of].
    + change (2 ^ 64) with two64 in *. lia.
    + destruct H4 as [H4|H4]; [left; assumption|]. right. intros H5. apply H4.
      eapply moved_down; [exact G| |exact H5]. lia.
  - specialize (R H1 H3). apply pe_end; try assumption; cbn [base_of].
    + change (2 ^ 64) with two64 in *. lia.
    + eapply moved_up; [exact G| |exact H4]. lia.
    + change (2 ^ 64) with two64 in *. lia.
  - discriminate H3.
Qed.
End MovedElf.

Lemma moved_start_problem f mp k d h e : (k + entry_of f < 2 ^ 64 -> k + entry_of f + d < 2 ^ 64) ->
  start_problem f mp (Some k) h e -> start_problem f mp (Some (k + d)) h e.
Proof.
  intros R H. destruct H as [e H|H1 H2|H1 H2 H3|H1 H2 H3 H4|H1 H2 H3 H4 H5]; cbn [base_of] in *;
    [apply sp_header|apply sp_entry|apply sp_overflow|apply sp_seek|apply sp_table]; try assumption; cbn [base_of];
    change (2 ^ 64) with two64 in *; lia.
Qed.
Lemma moved_start_good f mp k d h : (k + entry_of f < 2 ^ 64 -> k + entry_of f + d < 2 ^ 64) ->
  start_good f mp (Some k) h -> start_good f mp (Some (k + d)) h.
Proof.
  intros R (H1 & H2 & H3 & H4 & H5). cbn [base_of] in *. specialize (R H3).
  split; [assumption|]. split; [assumption|]. split; [|split; assumption]. cbn [base_of].
  change (2 ^ 64) with two64 in *. lia.
Qed.
Lemma moved_max d k ps : max_end (Some (k + d)) ps = match loaded ps with [] => 0 | _ => max_end (Some k) ps + d end.
Proof.
  unfold max_end. induction (loaded ps) as [|p l IH]; [reflexivity|]. cbn [map fold_right].
  rewrite IH. unfold end_of. cbn [base_of]. destruct l; cbn [map fold_right]; lia.
Qed.

Definition shift (d : N) (s : N * bytes) : N * bytes := (fst s + d, snd s).
Lemma moved_segs f d k ps : segs_of f (Some (k + d)) ps = map (shift d) (segs_of f (Some k) ps).
Proof.
  unfold segs_of. rewrite map_map. apply map_ext. intros p. unfold seg_of, shift. cbn [fst snd base_of].
  f_equal. lia.
Qed.

Lemma with_code32_twice f a b : 620 <= lenN f ->
  with_code32 (with_code32 (part f 0x1f1 123) a) b = with_code32 (part f 0x1f1 123) b.
Proof.
  intros L. set (h := part f 0x1f1 123). assert (Hh : lenN h = 123) by (unfold h; apply part_len; lia).
  assert (L0 : length (part h 0 35) = 35%nat) by (pose proof (part_len h 0 35); unfold lenN, bytes in *; lia).
  assert (L1 : length (le_enc 4 a) = 4%nat) by apply length_le_enc.
  unfold with_code32 at 1 3. f_equal; [|f_equal].
  - unfold with_code32. unfold part at 1. change (N.to_nat 35) with 35%nat. change (N.to_nat 0) with 0%nat. cbn [skipn].
    rewrite firstn_app, L0, Nat.sub_diag, firstn_O, app_nil_r. rewrite firstn_all2; [reflexivity|lia].
  - unfold with_code32. unfold part at 1. change (N.to_nat 39) with 39%nat. rewrite app_assoc, skipn_app, app_length, L0, L1.
    rewrite skipn_all2 by (rewrite app_length; lia). cbn [Nat.add Nat.sub app skipn].
    apply firstn_all2. pose proof (part_len h 39 84). unfold lenN, bytes in *. lia.
Qed.

Lemma caps_of_offset f mp k ps c : caps f mp (Some k) ps c -> c = PvhEntryIgnored.
Proof. intros H. inversion H; [reflexivity|reflexivity|discriminate]. Qed.

Lemma elf_room d k h im : room_for d (LoadElf (Some k) h im) ->
  (k + entry_of (rd_data im) < 2 ^ 64 -> k + entry_of (rd_data im) + d < 2 ^ 64) /\
  forall p, In p (phdrs_of (rd_data im)) -> is_load p = true ->
    (k + ph_paddr p < 2 ^ 64 -> k + ph_paddr p + d < 2 ^ 64) /\
    (k + ph_paddr p + ph_memsz p < 2 ^ 64 -> k + ph_paddr p + ph_memsz p + d < 2 ^ 64).
Proof.
  intros R. unfold room_for in R. cbn [computed base_of] in R. split; [apply R; left; reflexivity|].
  intros p Hp Hl. assert (Hin : In p (loaded (phdrs_of (rd_data im)))) by (apply filter_In; auto).
  split; apply R; right; apply in_flat_map; exists p; (split; [assumption|]); [left|right; left]; reflexivity.
Qed.

Lemma elf_says_moved d k h im m1 m2 o1 : guest_moved d m1 m2 -> room_for d (LoadElf (Some k) h im) ->
  elf_says (rd_data im) (rd_maxpos im) (Some k) h m1 o1 ->
  exists o2, elf_says (rd_data im) (rd_maxpos im) (Some (k + d)) h m2 o2 /\
    report_moved d (LoadElf (Some k) h im) (Loaded o1) (Loaded o2).
Proof.
  intros G R H. apply elf_room in R. destruct R as [R1 R2].
  destruct H as [e H|pre p post e H1 H2 H3 H4|c H1 H2 H3].
  - exists (Err (LElf e)). split; [|reflexivity]. apply es_start, moved_start_problem; assumption.
  - exists (Err e). split; [|reflexivity].
    assert (In p (phdrs_of (rd_data im))) as Hp by (rewrite H2; apply in_elt).
    eapply es_segment; [apply moved_start_good; eassumption|exact H2| |].
    + apply Forall_forall. intros q Hq. pose proof (proj1 (Forall_forall _ _) H3 q Hq) as H5.
      eapply moved_fine; [exact G| |exact H5]. intros Hl. apply R2; [rewrite H2; apply in_or_app; left|]; assumption.
    + eapply moved_ph_error; [exact G| |exact H4]. intros Hl. apply R2; assumption.
  - eexists. split.
    + apply es_loaded; [apply moved_start_good; eassumption| |eapply caps_offset; reflexivity].
      apply Forall_forall. intros q Hq. pose proof (proj1 (Forall_forall _ _) H2 q Hq) as H5.
      eapply moved_fine; [exact G| |exact H5]. intros Hl. apply R2; assumption.
    + unfold report_moved, result_moved. cbn [kernel_load kernel_end result_header pvh_boot_cap writes base_of option_map].
      split; [lia|]. split; [|split; [reflexivity|symmetry; eapply caps_of_offset; eassumption]].
      rewrite moved_max. unfold segs_of. destruct (loaded (phdrs_of (rd_data im))); reflexivity.
Qed.

Lemma bz_says_moved be d k h im m1 m2 o1 : guest_moved d m1 m2 ->
  bz_says be (rd_data im) (Some k) h m1 o1 ->
  exists o2, bz_says be (rd_data im) (Some (k + d)) h m2 o2 /\
    report_moved d (LoadBz (Some k) h im) (Loaded o1) (Loaded o2).
Proof.
  intros G H. destruct H as [H1|H1 H2|H1 H2 H3|H1 H2 H3 H4|H1 H2 H3 H4]; cbn [bz_load_addr] in *.
  - eexists. split; [apply bs_header; assumption|reflexivity].
  - eexists. split; [apply bs_short; assumption|reflexivity].
  - eexists. split; [apply bs_low; assumption|reflexivity].
  - eexists. split; [apply bs_place; try assumption|reflexivity]. cbn [bz_load_addr]. intros H5. apply H4.
    eapply moved_dest; [exact G|reflexivity|exact H5].
  - eexists. split; [apply bs_loaded; try assumption|].
    + cbn [bz_load_addr]. apply (moved_dest be d m1 m2 k (k + d) _ G eq_refl). exact H4.
    + unfold report_moved, result_moved. cbn [kernel_load kernel_end result_header pvh_boot_cap writes bz_load_addr option_map].
      split; [reflexivity|]. split; [lia|]. split; [|reflexivity]. f_equal. symmetry. apply with_code32_twice.
      unfold bz_setup_size in H2. destruct (N.eqb_spec (bz_setup_sects (rd_data im)) 0); lia.
Qed.

Lemma pe_says_moved d a k h im m1 m2 o1 : guest_moved d m1 m2 -> d mod (2 * 1024 * 1024) = 0 ->
  room_for d (LoadPe a (Some k) h im) ->
  pe_says a (rd_data im) (Some k) m1 o1 ->
  exists o2, pe_says a (rd_data im) (Some (k + d)) m2 o2 /\
    report_moved d (LoadPe a (Some k) h im) (Loaded o1) (Loaded o2).
Proof.
  intros G D R H. unfold room_for in R. cbn [computed] in R. specialize (R _ (or_introl eq_refl)).
  assert (A : (k + d) mod (2 * 1024 * 1024) = k mod (2 * 1024 * 1024)).
  { rewrite N.add_mod by discriminate. rewrite D, N.add_0_r, N.mod_mod by discriminate. reflexivity. }
  assert (L : pe_load_addr a (rd_data im) (Some (k + d)) = pe_load_addr a (rd_data im) (Some k) + d)
    by (unfold pe_load_addr; cbn [pe_base]; lia).
  assert (Hg : pe_good a (rd_data im) (Some k) -> pe_good a (rd_data im) (Some (k + d))).
  { intros (H1 & H2 & H3 & H4). split; [assumption|]. split; [assumption|]. cbn [pe_base] in *. split; [congruence|].
    rewrite L. apply R. assumption. }
  destruct H as [e H|H1 H2|H1 H2].
  - exists (Err (LPe e)). split; [|reflexivity]. apply ps_problem.
    destruct H as [H1|H1 H2|H1 H2 H3|H1 H2 H3 H4]; [apply pp_short|apply pp_magic|apply pp_align|apply pp_over];
      try assumption; cbn [pe_base] in *; try congruence. rewrite L. change (2 ^ 64) with two64 in *. lia.
  - eexists. split; [apply ps_place; [apply Hg; assumption|]|reflexivity]. intros H3. apply H2.
    eapply moved_down; [exact G|exact L|exact H3].
  - eexists. split; [apply ps_loaded; [apply Hg; assumption|]|].
    + eapply moved_up; [exact G|exact L|exact H2].
    + unfold report_moved, result_moved. cbn [kernel_load kernel_end result_header pvh_boot_cap writes option_map].
      rewrite L. split; [reflexivity|]. split; [lia|]. split; reflexivity.
Qed.

Lemma header_says_moved d past fail p1 p2 m1 m2 o : guest_moved d m1 m2 -> info_moved d p1 p2 ->
  header_says past fail p1 m1 o -> header_says past fail p2 m2 o.
Proof.
  intros G (E1 & E2 & _) H. destruct H as [H|H1 H2|H].
  - apply hs_past. rewrite E1, E2. intros H1. apply H. eapply moved_backed; [exact G| |exact H1]. lia.
  - apply hs_hole; rewrite E1, E2.
    + apply (moved_backed d m1 m2 (header_start p1 + lenN (header p1))); [exact G|lia|exact H1].
    + intros H3. apply H2. eapply moved_down; [exact G|reflexivity|exact H3].
  - apply hs_written. rewrite E1, E2. eapply moved_up; [exact G|reflexivity|exact H].
Qed.

Lemma pvh_says_moved be d p1 p2 m1 m2 o : guest_moved d m1 m2 -> info_moved d p1 p2 ->
  pvh_says be p1 m1 o -> pvh_says be p2 m2 o.
Proof.
  intros G (E1 & E2 & E3 & E4 & E5 & E6) H.
  assert (Mf : map_fits p1 m1 -> map_fits p2 m2).
  { intros (s & v & F1 & F2 & F3). exists (s + d), v. rewrite E4, E3, F1, F2. split; [reflexivity|]. split; [reflexivity|].
    eapply moved_up; [exact G|reflexivity|exact F3]. }
  assert (If : info_fits p1 m1 -> info_fits p2 m2).
  { unfold info_fits. rewrite E1, E2. apply moved_up with (d := d); [exact G|reflexivity]. }
  destruct H as [H|v H1 H2|s v H1 H2 H3|s v H1 H2 H3 H4|H1 H2|H1 H2 H3|w H1 H2 H3 H4|a w H1 H2 H3 H4 H5|H1 H2 H3].
  - apply vs_no_map. congruence.
  - eapply vs_no_map_addr; [rewrite E3; exact H1|rewrite E4, H2; reflexivity].
  - eapply vs_map_past; [rewrite E4, H1; reflexivity|rewrite E3; exact H2|]. intros H4. apply H3.
    eapply moved_backed; [exact G| |exact H4]. lia.
  - eapply vs_map_hole; [rewrite E4, H1; reflexivity|rewrite E3; exact H2| |].
    + apply (moved_backed d m1 m2 (s + lenN v)); [exact G|lia|exact H3].
    + intros H5. apply H4. eapply moved_down; [exact G|reflexivity|exact H5].
  - apply vs_info_past; [auto|]. rewrite E1, E2. intros H3. apply H2. eapply moved_backed; [exact G| |exact H3]. lia.
  - apply vs_info_hole; [auto| |]; rewrite E1, E2.
    + apply (moved_backed d m1 m2 (header_start p1 + lenN (header p1))); [exact G|lia|exact H2].
    + intros H4. apply H3. eapply moved_down; [exact G|reflexivity|exact H4].
  - eapply vs_no_modules_addr; [auto|auto|rewrite E5; exact H3|rewrite E6, H4; reflexivity].
  - eapply vs_modules_hole; [auto|auto|rewrite E6, H3; reflexivity|rewrite E5; exact H4|]. intros H6. apply H5.
    eapply moved_dest; [exact G|reflexivity|exact H6].
  - apply vs_written; [auto|auto|]. intros w Hw. rewrite E5 in Hw. destruct (H3 w Hw) as (a & A1 & A2).
    exists (a + d). split; [rewrite E6, A1; reflexivity|]. apply (moved_dest be d m1 m2 a (a + d) _ G eq_refl). exact A2.
Qed.

Lemma dtb_says_moved be d f addr m1 m2 o : guest_moved d m1 m2 -> dtb_says be f addr m1 o -> dtb_says be f (addr + d) m2 o.
Proof.
  intros G H. destruct H as [H|H1 H2|H1 H2]; [apply ds_big; assumption| |].
  - apply ds_place; [assumption|]. intros H3. apply H2. eapply moved_dest; [exact G|reflexivity|exact H3].
  - apply ds_loaded; [assumption|]. apply (moved_dest be d m1 m2 addr _ _ G eq_refl). exact H2.
Qed.
Lemma cmdline_says_moved d c addr m1 m2 o : (exists y, backed m1 y) -> guest_moved d m1 m2 ->
  cmdline_says c addr m1 o -> cmdline_says c (addr + d) m2 o.
Proof.
  intros Y G H. destruct H as [e H|s H1 H2|s H1 H2 H3|s H1 H2].
  - eapply cs_text; eassumption.
  - eapply cs_past; [eassumption|]. intros H3. apply H2. apply (moved_reaches d m1 m2 _ Y G).
    replace (addr + lenN s + d) with (addr + d + lenN s) by lia. exact H3.
  - eapply cs_hole; [eassumption| |].
    + replace (addr + d + lenN s) with (addr + lenN s + d) by lia. apply (moved_reaches d m1 m2 _ Y G). exact H2.
    + intros H4. apply H3. eapply moved_down; [exact G|reflexivity|exact H4].
  - eapply cs_loaded; [eassumption|]. eapply moved_up; [exact G|reflexivity|exact H2].
Qed.

Lemma says_moved be d t1 t2 m1 m2 x1 : (exists y, backed m1 y) -> guest_moved d m1 m2 -> call_moved d t1 t2 -> room_for d t1 ->
  says be m1 t1 x1 -> exists x2, says be m2 t2 x2 /\ report_moved d t1 x1 x2.
Proof.
  intros Y G C R H.
  destruct H as [off h im o H|off h im o H|a off h im o H|addr im o H|addr c o H|p o H|p o H|p o H].
  - destruct off as [k|]; [|contradiction C]. destruct t2 as [[k'|] h' im'| | | | | | |]; try contradiction C.
    destruct C as (-> & <- & E1 & E2). destruct (elf_says_moved d k h im m1 m2 o G R H) as (o2 & H1 & H2).
    exists (Loaded o2). split; [|exact H2]. constructor. rewrite <- E1, <- E2. exact H1.
  - destruct off as [k|]; [|contradiction C]. destruct t2 as [|[k'|] h' im'| | | | | |]; try contradiction C.
    destruct C as (-> & <- & E1 & E2). destruct (bz_says_moved be d k h im m1 m2 o G H) as (o2 & H1 & H2).
    exists (Loaded o2). split; [|exact H2]. constructor. rewrite <- E1. exact H1.
  - destruct off as [k|]; [|contradiction C]. destruct t2 as [| |a' [k'|] h' im'| | | | |]; try contradiction C.
    destruct C as (<- & -> & D & E1 & E2). destruct (pe_says_moved d a k h im m1 m2 o G D R H) as (o2 & H1 & H2).
    exists (Loaded o2). split; [|exact H2]. constructor. rewrite <- E1. exact H1.
  - destruct t2 as [| | |addr' im'| | | |]; try contradiction C. destruct C as (-> & E1 & E2).
    exists (Done o). split; [|destruct o as [[]| |]; reflexivity]. constructor. rewrite <- E1. eapply dtb_says_moved; eassumption.
  - destruct t2 as [| | | |addr' c'| | |]; try contradiction C. destruct C as (-> & <-).
    exists (Done o). split; [|destruct o as [[]| |]; reflexivity]. constructor. eapply cmdline_says_moved; eassumption.
  - destruct t2 as [| | | | |p'| |]; try contradiction C.
    exists (Written o). split; [|destruct o as [[]| |]; reflexivity]. constructor. eapply header_says_moved; eassumption.
  - destruct t2 as [| | | | | |p'|]; try contradiction C.
    exists (Written o). split; [|destruct o as [[]| |]; reflexivity]. constructor. eapply header_says_moved; eassumption.
  - destruct t2 as [| | | | | | |p']; try contradiction C.
    exists (Written o). split; [|destruct o as [[]| |]; reflexivity]. constructor. eapply pvh_says_moved; eassumption.
Qed.

(** What the calls do to memory moves along. *)
Lemma put_moved d f1 f2 a bs x : f2 (x + d) = f1 x -> put f2 (a + d) bs (x + d) = put f1 a bs x.
Proof.
  intros H. unfold put. replace (x + d - (a + d)) with (x - a) by lia.
  destruct (N.leb_spec (a + d) (x + d)), (N.leb_spec a x); try lia; cbn [andb]; [|assumption].
  destruct (N.ltb_spec (x + d) (a + d + lenN bs)), (N.ltb_spec x (a + lenN bs)); try lia; [reflexivity|assumption].
Qed.
Lemma poured_moved d m1 m2 a bs m1' m2' : guest_moved d m1 m2 -> poured m1 a bs m1' -> poured m2 (a + d) bs m2' ->
  guest_moved d m1' m2'.
Proof.
  intros G (k1 & A1 & A2 & A3 & A4 & A5) (k2 & B1 & B2 & B3 & B4 & B5).
  assert (k1 = k2) as <-.
  { destruct (N.lt_trichotomy k1 k2) as [Hk|[Hk|Hk]]; [exfalso|assumption|exfalso].
    - apply A3; [lia|]. apply (moved_backed d m1 m2 (a + k1) (a + k1 + d) G eq_refl). apply B2; lia.
    - apply B3; [lia|]. apply (moved_backed d m1 m2 (a + k2) (a + d + k2) G); [lia|]. apply A2; lia. }
  destruct G as [G1 G2]. split; intros x.
  - unfold backed in *. rewrite A4, B4. apply G1.
  - intros Hx. rewrite A5, B5. apply put_moved, G2. unfold backed in *. rewrite A4 in Hx. exact Hx.
Qed.
Lemma poured_all_moved d ws : forall m1 m2 m1' m2', guest_moved d m1 m2 -> poured_all m1 ws m1' ->
  poured_all m2 (map (shift d) ws) m2' -> guest_moved d m1' m2'.
Proof.
  induction ws as [|[a bs] ws IH]; intros m1 m2 m1' m2' G P1 P2; cbn [map poured_all shift fst snd] in P1, P2.
  - destruct P1 as [A1 A2], P2 as [B1 B2], G as [G1 G2]. split; intros x.
    + unfold backed in *. rewrite A1, B1. apply G1.
    + intros Hx. rewrite A2, B2. apply G2. unfold backed in *. rewrite A1 in Hx. exact Hx.
  - destruct P1 as (n1 & P1 & Q1), P2 as (n2 & P2 & Q2). eapply IH; [|exact Q1|exact Q2]. eapply poured_moved; eassumption.
Qed.

Lemma elf_tried_moved d k h im m1 m2 ps : guest_moved d m1 m2 -> room_for d (LoadElf (Some k) h im) ->
  elf_tried (rd_data im) (rd_maxpos im) (Some k) h m1 ps ->
  elf_tried (rd_data im) (rd_maxpos im) (Some (k + d)) h m2 (map (shift d) ps).
Proof.
  intros G R H. apply elf_room in R. destruct R as [R1 R2].
  assert (Fi : forall l, (forall q, In q l -> In q (phdrs_of (rd_data im))) ->
    Forall (ph_fine (rd_data im) (rd_maxpos im) m1 (Some k)) l -> Forall (ph_fine (rd_data im) (rd_maxpos im) m2 (Some (k + d))) l).
  { intros l Hl Hf. apply Forall_forall. intros q Hq. pose proof (proj1 (Forall_forall _ _) Hf q Hq) as H5.
    eapply moved_fine; [exact G| |exact H5]. intros Hi. apply R2; [apply Hl|]; assumption. }
  assert (Er : forall p e, In p (phdrs_of (rd_data im)) -> ph_error (rd_data im) (rd_maxpos im) m1 (Some k) p e ->
    ph_error (rd_data im) (rd_maxpos im) m2 (Some (k + d)) p e).
  { intros p e Hp He. eapply moved_ph_error; [exact G| |exact He]. intros Hi. apply R2; assumption. }
  destruct H as [e H|pre p post e H1 H2 H3 H4 H5|pre p post e H1 H2 H3 H4 H5|H1 H2].
  - eapply et_start, moved_start_problem; eassumption.
  - rewrite <- moved_segs. eapply et_before; [apply moved_start_good; assumption|exact H2| |apply Er; [|exact H4]|exact H5].
    + apply Fi; [|assumption]. intros q Hq. rewrite H2. apply in_or_app; left; assumption.
    + rewrite H2. apply in_elt.
  - rewrite <- moved_segs. eapply et_during; [apply moved_start_good; assumption|exact H2| |apply Er; [|exact H4]|exact H5].
    + apply Fi; [|assumption]. intros q Hq. rewrite H2. apply in_or_app; left; assumption.
    + rewrite H2. apply in_elt.
  - rewrite <- moved_segs. apply et_all; [apply moved_start_good; assumption|]. apply Fi; [trivial|assumption].
Qed.

Lemma areas_moved d p1 p2 : info_moved d p1 p2 -> pvh_areas p2 = map (shift d) (pvh_areas p1).
Proof.
  intros (E1 & E2 & E3 & E4 & E5 & E6). unfold pvh_areas. rewrite E1, E2, E3, E4, E5, E6, !map_app.
  destruct (sections_start p1), (sections p1), (modules_start p1), (modules p1); reflexivity.
Qed.

Lemma tried_moved d t1 t2 m1 m2 x1 x2 ps : guest_moved d m1 m2 -> call_moved d t1 t2 -> room_for d t1 ->
  report_moved d t1 x1 x2 -> tried m1 t1 x1 ps -> tried m2 t2 x2 (map (shift d) ps).
Proof.
  intros G C R X H.
  destruct t1 as [[k|] h im|[k|] h im|a [k|] h im|addr im|addr c|p|p|p]; try contradiction C.
  { destruct t2 as [[k'|] h' im'| | | | | | |]; try contradiction C. destruct C as (-> & <- & E1 & E2).
    unfold tried in *. rewrite <- E1, <- E2. eapply elf_tried_moved; eassumption. }
  all: destruct t2 as [[k'|] h' im'|[k'|] h' im'|a' [k'|] h' im'|addr' im'|addr' c'|p'|p'|p']; try contradiction C.
  all: destruct x1 as [[r1|e|q]|[u|e|q]|[u|e|q]]; destruct x2 as [[r2|e2|q2]|[u2|e2|q2]|[u2|e2|q2]];
    try contradiction X; try discriminate X; try (injection X as ->);
    unfold tried in *; try (subst ps; reflexivity).
  - destruct C as (-> & <- & E1 & E2). subst ps. rewrite <- E1. reflexivity.
  - destruct C as (-> & <- & E1 & E2). destruct e as [| e| | | | | |]; try (subst ps; reflexivity).
    destruct e; try (subst ps; reflexivity). subst ps. rewrite <- E1. reflexivity.
  - destruct C as (<- & -> & D & E1 & E2). subst ps. rewrite <- E1.
    unfold pe_load_addr, shift; cbn [pe_base map fst snd].
    replace (k + d + pe_text_offset a (rd_data im)) with (k + pe_text_offset a (rd_data im) + d) by lia. reflexivity.
  - destruct C as (<- & -> & D & E1 & E2). destruct e as [| |e| | | | |]; try (subst ps; reflexivity).
    destruct e; try (subst ps; reflexivity). subst ps. rewrite <- E1.
    unfold pe_load_addr, shift; cbn [pe_base map fst snd].
    replace (k + d + pe_text_offset a (rd_data im)) with (k + pe_text_offset a (rd_data im) + d) by lia. reflexivity.
  - destruct C as (-> & E1 & E2). subst ps. rewrite <- E1. reflexivity.
  - destruct C as (-> & E1 & E2). destruct e as [| |e| | | | |]; try (subst ps; reflexivity).
    destruct e; try (subst ps; reflexivity). subst ps. rewrite <- E1. reflexivity.
  - destruct C as (-> & <-). destruct H as (s & H1 & ->). exists s. split; [assumption|reflexivity].
  - destruct C as (-> & <-). destruct e; try (subst ps; reflexivity).
    destruct H as (s & H1 & ->). exists s. split; [assumption|reflexivity].
  - destruct C as (E1 & E2 & _). subst ps. rewrite E1, E2. reflexivity.
  - destruct C as (E1 & E2 & _). destruct e as [e|e|e| | |]; try (subst ps; reflexivity).
    destruct e; try (subst ps; reflexivity). subst ps. rewrite E1, E2. reflexivity.
  - destruct C as (E1 & E2 & _). subst ps. rewrite E1, E2. reflexivity.
  - destruct C as (E1 & E2 & _). destruct e as [e|e|e| | |]; try (subst ps; reflexivity).
    destruct e; try (subst ps; reflexivity). subst ps. rewrite E1, E2. reflexivity.
  - subst ps. symmetry. apply areas_moved. assumption.
  - pose proof (areas_moved d p p' C) as A. destruct C as (E1 & E2 & E3 & E4 & E5 & E6).
    destruct e as [e|e|e| | |]; try (subst ps; reflexivity).
    destruct e; try (subst ps; reflexivity); try (subst ps; symmetry; exact A);
      destruct H as (s & v & H1 & H2 & ->); exists (s + d), v; rewrite E4, E3, H1, H2; cbn [option_map];
      (split; [reflexivity|]; split; [reflexivity|]); rewrite ?E1, ?E2; reflexivity.
Qed.

Theorem C102_moved : forall bld be d t1 t2 m1 m2 m1' m2' x1 x2,
  wf_mem m1 = true -> wf_mem m2 = true -> (exists y, backed m1 y) -> guest_moved d m1 m2 ->
  call_moved d t1 t2 -> room_for d t1 ->
  task_typed t1 -> task_typed t2 -> steady be t1 -> steady be t2 ->
  perform bld be t1 m1 = (m1', x1) -> perform bld be t2 m2 = (m2', x2) ->
  report_moved d t1 x1 x2 /\ guest_moved d m1' m2'.
Proof.
  intros bld be d t1 t2 m1 m2 m1' m2' x1 x2 W1 W2 Y G C R T1 T2 S1 S2 P1 P2.
  pose proof (C78_rules_obeyed _ _ _ _ _ _ W1 T1 S1 P1) as A1.
  pose proof (C78_rules_obeyed _ _ _ _ _ _ W2 T2 S2 P2) as A2.
  destruct (says_moved be d t1 t2 m1 m2 x1 Y G C R A1) as (y & A3 & X).
  pose proof (says_det _ _ _ _ _ T2 A2 A3) as <-. split; [exact X|].
  destruct (C86_effect _ _ _ _ _ _ W1 T1 S1 P1) as (ps1 & B1 & Q1).
  destruct (C86_effect _ _ _ _ _ _ W2 T2 S2 P2) as (ps2 & B2 & Q2).
  pose proof (tried_moved d t1 t2 m1 m2 x1 x2 ps1 G C R X B1) as B3.
  pose proof (C86_one_choice _ _ _ _ _ T2 B2 B3) as ->. eapply poured_all_moved; eassumption.
Qed.

Lemma moved_nonempty m1 m1' : regions m1' = regions m1 -> (exists y, backed m1 y) -> exists y, backed m1' y.
Proof. intros E (y & Hy). exists y. unfold backed in *. rewrite E. exact Hy. Qed.

(** A whole preparation moves as a whole. *)
Theorem C102_whole_sequences : forall bld be d ts1 ts2 m1 m2 m1' m2' xs1 xs2,
  wf_mem m1 = true -> wf_mem m2 = true -> (exists y, backed m1 y) -> guest_moved d m1 m2 ->
  Forall2 (call_moved d) ts1 ts2 -> Forall (room_for d) ts1 ->
  Forall task_typed ts1 -> Forall task_typed ts2 -> Forall (steady be) ts1 -> Forall (steady be) ts2 ->
  perform_all bld be ts1 m1 = (m1', xs1) -> perform_all bld be ts2 m2 = (m2', xs2) ->
  Forall2 (fun t1x1 x2 => report_moved d (fst t1x1) (snd t1x1) x2) (combine ts1 xs1) xs2 /\
  length xs1 = length ts1 /\ guest_moved d m1' m2'.
Proof.
  intros bld be d ts1. induction ts1 as [|t1 ts1 IH]; intros ts2 m1 m2 m1' m2' xs1 xs2 W1 W2 Y G C R T1 T2 S1 S2 P1 P2;
    inversion C as [|? t2 ? ts2' C1 C2]; subst.
  - cbn in P1, P2. injection P1 as <- <-. injection P2 as <- <-. split; [constructor|]. split; [reflexivity|assumption].
  - cbn [perform_all] in P1, P2.
    destruct (perform bld be t1 m1) as [ma xa] eqn:A1. destruct (perform_all bld be ts1 ma) as [mb xb] eqn:B1.
    destruct (perform bld be t2 m2) as [mc xc] eqn:A2. destruct (perform_all bld be ts2' mc) as [md xd] eqn:B2.
    injection P1 as <- <-. injection P2 as <- <-.
    inversion R; subst. inversion T1; subst. inversion T2; subst. inversion S1; subst. inversion S2; subst.
    destruct (C102_moved bld be d t1 t2 m1 m2 ma mc xa xc) as [X1 X2]; try assumption.
    assert (Ra : regions ma = regions m1) by (eapply (C56_frame bld be t1 m1); eassumption).
    assert (Rc : regions mc = regions m2) by (eapply (C56_frame bld be t2 m2); eassumption).
    destruct (IH ts2' ma mc mb md xb xd) as (X3 & X4 & X5); try assumption.
    + eapply wf_regions; eassumption.
    + eapply wf_regions; eassumption.
    + eapply moved_nonempty; eassumption.
    + cbn [combine length]. split; [constructor; assumption|]. split; [congruence|assumption].
Qed.

(** What the defaults stand for: a bzImage without an address goes where its header says, an Image of arm64 or
    riscv64 to offset 0. (An ELF image without an offset goes to its own addresses, and has its notes read.) *)
Theorem C102_defaults : forall bld be t1 t2 m, spelled_out t1 t2 ->
  wf_mem m = true -> task_typed t1 -> steady be t1 ->
  snd (perform bld be t1 m) = snd (perform bld be t2 m) /\
  mem_same (fst (perform bld be t1 m)) (fst (perform bld be t2 m)).
Proof.
  intros bld be t1 t2 m D W T1 S1.
  assert (T2 : task_typed t2).
  { destruct t1 as [|[?|] h im|a [?|] h im| | | | |]; try contradiction D;
      destruct t2 as [|[k|] h' im'|a' [k|] h' im'| | | | |]; try contradiction D.
    - destruct D as (-> & <- & <-). destruct T1 as (A & B & _). split; [assumption|]. split; [assumption|].
      intros a Ha. injection Ha as <-. pose proof (u32at_lt (rd_data im) 0x214). unfold bz_code32_start. lia.
    - destruct D as (<- & -> & <-). exact T1. }
  assert (S2 : steady be t2).
  { destruct t1 as [|[?|] h im|a [?|] h im| | | | |]; try contradiction D;
      destruct t2 as [|[k|] h' im'|a' [k|] h' im'| | | | |]; try contradiction D; destruct D as (_ & _ & <-); exact S1. }
  destruct (perform bld be t1 m) as [n1 x1] eqn:P1. destruct (perform bld be t2 m) as [n2 x2] eqn:P2. cbn [fst snd].
  assert (X : x1 = x2 /\ mem_same n2 n1).
  { apply (C86_contract _ _ _ _ _ _ W T2 S2 P2). pose proof (C78_rules_obeyed _ _ _ _ _ _ W T1 S1 P1) as A1.
    destruct (C86_effect _ _ _ _ _ _ W T1 S1 P1) as (ps & B1 & Q1).
    exists ps. split; [|split; [|exact Q1]].
    - destruct t1 as [|[?|] h im|a [?|] h im| | | | |]; try contradiction D;
        destruct t2 as [|[k|] h' im'|a' [k|] h' im'| | | | |]; try contradiction D.
      + destruct D as (-> & <- & <-). inversion A1 as [|? ? ? o H| | | | | |]; subst. constructor.
        inversion H; subst; [apply bs_header|apply bs_short|apply bs_low|apply bs_place
          |apply (bs_loaded be (rd_data im) (Some (bz_code32_start (rd_data im))) h m)]; assumption.
      + destruct D as (<- & -> & <-). inversion A1 as [| |? ? ? ? o H| | | | |]; subst. constructor.
        inversion H as [e H0| |]; subst; [|apply ps_place; assumption|apply (ps_loaded a (rd_data im) (Some 0) m); assumption].
        apply ps_problem. destruct H0; [apply pp_short|apply pp_magic|apply pp_align|apply pp_over]; assumption.
    - destruct t1 as [|[?|] h im|a [?|] h im| | | | |]; try contradiction D;
        destruct t2 as [|[k|] h' im'|a' [k|] h' im'| | | | |]; try contradiction D.
      + destruct D as (-> & <- & <-). exact B1.
      + destruct D as (<- & -> & <-). exact B1. }
  destruct X as [-> X]. split; [reflexivity|]. apply mem_same_sym. exact X.
Qed.

Theorem C102_elf_default : forall bld be h im m m1 m2 res x2,
  wf_mem m = true -> wf_reader im -> ~ io_trouble be im ->
  perform bld be (LoadElf None h im) m = (m1, Loaded (Ok res)) ->
  perform bld be (LoadElf (Some 0) h im) m = (m2, x2) ->
  x2 = Loaded (Ok (mkResult (kernel_load res) (kernel_end res) None PvhEntryIgnored)) /\ mem_same m1 m2.
Proof.
  intros bld be h im m m1 m2 res x2 W T S P1 P2.
  pose proof (C78_rules_obeyed _ _ (LoadElf None h im) _ _ _ W T S P1) as A1.
  inversion A1 as [? ? ? o H| | | | | | |]; subst. inversion H as [| |c H1 H2 H3 H4]; subst. cbn [kernel_load kernel_end].
  assert (A2 : elf_says (rd_data im) (rd_maxpos im) (Some 0) h m
    (Ok (mkResult (base_of None + entry_of (rd_data im)) (max_end None (phdrs_of (rd_data im))) None PvhEntryIgnored))).
  { change (base_of None) with (base_of (Some 0)).
    replace (max_end None (phdrs_of (rd_data im))) with (max_end (Some 0) (phdrs_of (rd_data im))) by reflexivity.
    apply es_loaded; [exact H1| |eapply caps_offset; reflexivity].
    eapply Forall_impl; [|exact H2]. intros p F. destruct F as [F1 F2 F3 F4|v c' F1 F2 F3 F4 F5|k F1 F2 F3|F1 F2].
    - apply pf_load; assumption.
    - eapply pf_note_ignored; [assumption..|reflexivity].
    - discriminate F3.
    - apply pf_other; assumption. }
  pose proof (C78_rules_obeyed _ _ (LoadElf (Some 0) h im) _ _ _ W T S P2) as A3.
  inversion A3 as [? ? ? o H5| | | | | | |]; subst. destruct T as (T1 & T2 & T3).
  pose proof (elf_says_det _ _ _ _ _ _ _ T2 H5 A2) as ->. split; [reflexivity|].
  assert (T : wf_reader im) by (split; [|split]; assumption).
  pose proof (C56_success_writes bld be (LoadElf None h im) _ _ _ W T P1 (or_introl (ex_intro _ _ eq_refl))) as O1.
  pose proof (C56_success_writes bld be (LoadElf (Some 0) h im) _ _ _ W T P2 (or_introl (ex_intro _ _ eq_refl))) as O2.
  destruct O1 as [O1 O3], O2 as [O2 O4]. split; [congruence|]. intros x. rewrite O3, O4. reflexivity.
Qed.

(** ** C103 *)
Lemma dest_backends m a n : n <> 0 -> (dest_ok TryAccess m a n <-> dest_ok GetSlices m a n).
Proof. intros H. unfold dest_ok. split; intros [H1 H2]; (split; [assumption|]); intros; [discriminate|contradiction]. Qed.
Lemma dest_any be m a n : n <> 0 -> (dest_ok be m a n <-> range_backed m a n).
Proof. intros H. unfold dest_ok. split; [intros [H1 _]; exact H1|]. intros H1. split; [assumption|]. intros; contradiction. Qed.
Lemma lenN_0 (bs : bytes) : bs <> [] -> lenN bs <> 0.
Proof. destruct bs; [contradiction|]. rewrite lenN_cons. intros _. lia. Qed.

Lemma says_backends be be' m t x : nothing_empty t -> says be m t x -> says be' m t x.
Proof.
  intros Z H. destruct H as [off h im o H|off h im o H|a off h im o H|addr im o H|addr c o H|p o H|p o H|p o H];
    try (constructor; exact H); cbn [nothing_empty] in Z; constructor.
  - apply lenN_0 in Z. destruct H; [apply bs_header|apply bs_short|apply bs_low|apply bs_place|apply bs_loaded]; try assumption;
      rewrite dest_any in * by exact Z; assumption.
  - apply lenN_0 in Z. destruct H; [apply ds_big|apply ds_place|apply ds_loaded]; try assumption;
      rewrite dest_any in * by exact Z; assumption.
  - destruct H as [H|v H1 H2|s v H1 H2 H3|s v H1 H2 H3 H4|H1 H2|H1 H2 H3|w H1 H2 H3 H4|a w H1 H2 H3 H4 H5|H1 H2 H3];
      [eapply vs_no_map|eapply vs_no_map_addr|eapply vs_map_past|eapply vs_map_hole|eapply vs_info_past|eapply vs_info_hole
      |eapply vs_no_modules_addr|eapply vs_modules_hole|eapply vs_written]; try eassumption.
    + assert (lenN w <> 0) by (apply lenN_0; intros ->; exact (Z H4)). rewrite dest_any in * by assumption. assumption.
    + intros w Hw. destruct (H3 w Hw) as (a & A1 & A2). exists a. split; [assumption|].
      assert (lenN w <> 0) by (apply lenN_0; intros ->; exact (Z Hw)). rewrite dest_any in * by assumption. assumption.
Qed.

Lemma steady_try t be : steady GetSlices t -> steady be t.
Proof.
  destruct be; [|trivial]. destruct t; cbn [steady]; try trivial; intros H T; apply H;
    (destruct T as [T|[T|[T _]]]; [left; exact T|right; left; exact T|discriminate T]).
Qed.

Theorem C103_strategies_agree : forall bld bld' t m m1 m2 x1 x2,
  wf_mem m = true -> task_typed t -> steady GetSlices t -> nothing_empty t ->
  perform bld TryAccess t m = (m1, x1) -> perform bld' GetSlices t m = (m2, x2) -> x1 = x2 /\ mem_same m1 m2.
Proof.
  intros bld bld' t m m1 m2 x1 x2 W T S Z P1 P2.
  assert (X : x2 = x1 /\ mem_same m1 m2); [|destruct X; split; [symmetry|]; assumption].
  apply (C86_contract _ _ _ _ _ _ W T (steady_try t TryAccess S) P1).
  destruct (C86_effect _ _ _ _ _ _ W T S P2) as (ps & B1 & Q1).
  exists ps. split; [|split; assumption]. eapply says_backends; [assumption|].
  eapply C78_rules_obeyed; eassumption.
Qed.

(** With an empty piece the strategies differ in one direction only: what works with [TryAccess] works with
    [GetSlices], which accepts an unmapped address for it. *)
Theorem C103_slices_accept_more : forall bld bld' t m m1 m2 x1 x2,
  wf_mem m = true -> task_typed t -> steady GetSlices t ->
  perform bld TryAccess t m = (m1, x1) -> success x1 -> perform bld' GetSlices t m = (m2, x2) -> x1 = x2 /\ mem_same m1 m2.
Proof.
  intros bld bld' t m m1 m2 x1 x2 W T S P1 X P2.
  pose proof (C78_rules_obeyed _ _ _ _ _ _ W T (steady_try t TryAccess S) P1) as A1.
  pose proof (C78_rules_obeyed _ _ _ _ _ _ W T S P2) as A2.
  assert (A3 : says GetSlices m t x1).
  { destruct A1 as [off h im o H|off h im o H|a off h im o H|addr im o H|addr c o H|p o H|p o H|p o H];
      try (constructor; exact H); constructor; destruct X as [(res & Hs)|[Hs|Hs]]; try discriminate Hs; injection Hs as Hs; subst o.
    - inversion H; subst. constructor; try assumption. split; [|discriminate]. match goal with D : dest_ok _ _ _ _ |- _ => apply D end.
    - inversion H; subst. constructor; try assumption. split; [|discriminate]. match goal with D : dest_ok _ _ _ _ |- _ => apply D end.
    - inversion H as [| | | | | | | |H1 H2 H3]; subst. apply vs_written; try assumption.
      intros w Hw. destruct (H3 w Hw) as (a & B1 & B2). exists a. split; [assumption|]. split; [apply B2|discriminate]. }
  pose proof (says_det _ _ _ _ _ T A2 A3) as ->. split; [reflexivity|].
  destruct (C56_success_writes _ _ _ _ _ _ W T P1 X) as [O1 O2].
  destruct (C56_success_writes _ _ _ _ _ _ W T P2 X) as [O3 O4].
  split; [congruence|]. intros y. rewrite O2, O4. reflexivity.
Qed.

(** Overflow checks on or off: no difference, for any source, working or not. *)
Theorem C103_builds_agree : forall be t m, wf_mem m = true -> task_typed t -> perform true be t m = perform false be t m.
Proof.
  intros be t m W T. destruct t as [off h im| | | |addr c| | |]; try reflexivity; cbn [perform].
  - rewrite C30_elf_builds_agree by assumption. reflexivity.
  - replace (load_cmdline true be m addr c) with (load_cmdline false be m addr c); [reflexivity|].
    unfold load_cmdline. destruct (as_cstring c) as [s|e|p]; try reflexivity.
    replace (usub (E := lerror) true (lenN (bytes_with_nul s)) 1) with (usub (E := lerror) false (lenN (bytes_with_nul s)) 1); [reflexivity|].
    unfold usub, bytes_with_nul. rewrite lenN_app. change (lenN [x00]) with 1.
    destruct (N.leb_spec 1 (lenN s + 1)); [reflexivity|lia].
Qed.
Theorem C103_builds_agree_on_sequences : forall be ts m, wf_mem m = true -> Forall task_typed ts ->
  perform_all true be ts m = perform_all false be ts m.
Proof.
  intros be ts. induction ts as [|t ts IH]; intros m W T; [reflexivity|]. inversion T as [|? ? T1 T2]; subst.
  cbn [perform_all]. rewrite C103_builds_agree by assumption.
  destruct (perform false be t m) as [m1 x] eqn:P. rewrite IH; [reflexivity| |assumption].
  eapply wf_regions; [|exact W]. eapply (C56_frame false be t m); eassumption.
Qed.
Theorem C103_strategies_agree_on_sequences : forall bld bld' ts m m1 m2 xs1 xs2,
  wf_mem m = true -> Forall task_typed ts -> Forall (steady GetSlices) ts -> Forall nothing_empty ts ->
  perform_all bld TryAccess ts m = (m1, xs1) -> perform_all bld' GetSlices ts m = (m2, xs2) -> xs1 = xs2 /\ mem_same m1 m2.
Proof.
  intros bld bld' ts m m1 m2 xs1 xs2 W T S Z P1 P2.
  assert (S' : Forall (steady TryAccess) ts) by (eapply Forall_impl; [|exact S]; intros t; apply steady_try).
  assert (X : xs2 = xs1 /\ mem_same m1 m2); [|destruct X; split; [symmetry|]; assumption].
  apply (C86_whole_sequences _ _ _ _ _ _ W T S' P1).
  destruct (proj2 (C86_whole_sequences _ _ _ _ _ _ W T S P2 xs2 m2)) as (ps & A & B & C).
  { split; [reflexivity|]. split; reflexivity. }
  exists ps. split; [|split; assumption]. clear - A Z. revert xs2 A. induction Z as [|t ts Z1 Z2 IH]; intros xs2 A;
    inversion A; subst; constructor; [eapply says_backends; eassumption|auto].
Qed.

(** ** Examples *)
(** The five calls of the demonstration succeed, and do so in a guest with more memory. *)
Definition roomy_mem : gmem := mkMem [mkRegion 0 0x20000; mkRegion 0x1000000 0x800; mkRegion 0x1000800 0x9000] (fun _ => x55).
Lemma roomy_larger : larger_guest demo_mem roomy_mem.
Proof.
  intros x (r & Hr & H1 & H2). cbn in Hr. destruct Hr as [<-|[<-|[]]]; cbn in H1, H2.
  - exists (mkRegion 0 0x20000). cbn. split; [auto|]. lia.
  - destruct (N.lt_ge_cases x 0x1000800).
    + exists (mkRegion 0x1000000 0x800). cbn. split; [auto|]. lia.
    + exists (mkRegion 0x1000800 0x9000). cbn. split; [auto|]. lia.
Qed.
Example C101_applies : wf_mem demo_mem = true /\ wf_mem roomy_mem = true /\ larger_guest demo_mem roomy_mem /\
  Forall task_typed demo_tasks /\ Forall (steady TryAccess) demo_tasks /\
  Forall success (snd (perform_all true TryAccess demo_tasks demo_mem)) /\
  snd (perform_all true TryAccess demo_tasks roomy_mem) = snd (perform_all true TryAccess demo_tasks demo_mem).
Proof.
  assert (Sx : Forall success (snd (perform_all true TryAccess demo_tasks demo_mem))).
  { destruct demo_tasks_succeed as (m' & xs & E & H & _). rewrite E. exact H. }
  split; [reflexivity|]. split; [reflexivity|]. split; [exact roomy_larger|]. split; [apply demo_tasks_typed|].
  split; [exact demo_tasks_steady|]. split; [exact Sx|].
  destruct (perform_all true TryAccess demo_tasks demo_mem) as [m1 xs1] eqn:P1.
  destruct (perform_all true TryAccess demo_tasks roomy_mem) as [m2 xs2] eqn:P2.
  exact (proj1 (C101_whole_sequences true TryAccess demo_tasks demo_mem roomy_mem m1 m2 xs1 xs2 eq_refl eq_refl roomy_larger
    (proj2 demo_tasks_typed) demo_tasks_steady P1 Sx P2)).
Qed.

(** The demonstration guest, 2 MiB further up, with other memory below. *)
Definition upper_mem : gmem :=
  mkMem [mkRegion 0 0x1000; mkRegion 0x1200000 0x1000; mkRegion 0x200000 0x10000] (fun a => if a <? 0x200000 then x00 else xff).
Lemma upper_moved : guest_moved 0x200000 demo_mem upper_mem.
Proof.
  split; intros x.
  - split; intros (r & Hr & H1 & H2); cbn in Hr.
    + destruct Hr as [<-|[<-|[]]]; cbn in H1, H2; [exists (mkRegion 0x200000 0x10000)|exists (mkRegion 0x1200000 0x1000)];
        cbn; (split; [auto|lia]).
    + destruct Hr as [<-|[<-|[<-|[]]]]; cbn in H1, H2; [lia|exists (mkRegion 0x1000000 0x1000)|exists (mkRegion 0 0x10000)];
        cbn; (split; [auto|lia]).
  - intros _. cbn. destruct (N.ltb_spec (x + 0x200000) 0x200000); [lia|reflexivity].
Qed.
Definition lower_calls : list task :=
  [ LoadElf (Some 0) None (plain_reader demo_elf);
    LoadCmdline 0x8000 (mkCmdline (txt "a=1") (txt "b") 20);
    LoadDtb 0xfffd (plain_reader [xd0; x0d; xfe; xed]);
    WritePvh demo_pvh ].
(** A source of the same image that stands elsewhere and returns three bytes per read. *)
Definition bit_by_bit (f : bytes) : reader := mkReader f 7 (rd_maxpos (plain_reader f)) (fun _ => 3) (fun _ _ => false) 0.
Lemma bit_by_bit_quiet f : ~ io_trouble TryAccess (bit_by_bit f).
Proof. intros [(i & E)|[(i & E)|(E & _)]]; discriminate. Qed.
Definition upper_calls : list task :=
  [ LoadElf (Some 0x200000) None (bit_by_bit demo_elf);
    LoadCmdline 0x208000 (mkCmdline (txt "a=1") (txt "b") 20);
    LoadDtb 0x20fffd (plain_reader [xd0; x0d; xfe; xed]);
    WritePvh (mkBoot [x04; x05] 0x20b000 (Some [x06]) (Some 0x20b100) (Some [x07]) (Some 0x20b200)) ].
Example C102_applies : wf_mem demo_mem = true /\ wf_mem upper_mem = true /\ guest_moved 0x200000 demo_mem upper_mem /\
  Forall2 (call_moved 0x200000) lower_calls upper_calls /\ Forall (room_for 0x200000) lower_calls /\
  Forall task_typed lower_calls /\ Forall task_typed upper_calls /\
  Forall (steady TryAccess) lower_calls /\ Forall (steady TryAccess) upper_calls /\
  snd (perform_all true TryAccess lower_calls demo_mem) =
    [Loaded (Ok (mkResult 0x1000100 0x1000020 None PvhEntryIgnored)); Done (Ok tt); Done (Err (LPe ReadDtbImage)); Written (Ok tt)] /\
  snd (perform_all true TryAccess upper_calls upper_mem) =
    [Loaded (Ok (mkResult 0x1200100 0x1200020 None PvhEntryIgnored)); Done (Ok tt); Done (Err (LPe ReadDtbImage)); Written (Ok tt)].
Proof.
  split; [reflexivity|]. split; [reflexivity|]. split; [exact upper_moved|]. split; [|split; [|split; [|split; [|split; [|split; [|split]]]]]].
  - unfold lower_calls, upper_calls. constructor; [split; [reflexivity|split; [reflexivity|split; reflexivity]]|].
    constructor; [split; reflexivity|]. constructor; [split; [reflexivity|split; reflexivity]|].
    constructor; [|constructor]. unfold call_moved, info_moved. split; [reflexivity|]. split; [reflexivity|].
    split; [reflexivity|]. split; [reflexivity|]. split; reflexivity.
  - unfold lower_calls. constructor; [|constructor; [intros a []|constructor; [intros a []|constructor; [intros a []|constructor]]]].
    intros a Ha. assert (Hv : computed (LoadElf (Some 0) None (plain_reader demo_elf)) =
      [0x1000100; 0x1000000; 0x1000020; 0x1000004; 0x1000008]) by (vm_compute; reflexivity).
    rewrite Hv in Ha. cbn in Ha. intros _. destruct Ha as [<-|[<-|[<-|[<-|[<-|[]]]]]]; reflexivity.
  - constructor; [apply plain_wf; reflexivity|]. constructor; [exact I|]. constructor; [apply plain_wf; reflexivity|].
    constructor; [exact I|constructor].
  - constructor; [exact (plain_wf demo_elf eq_refl)|]. constructor; [exact I|]. constructor; [apply plain_wf; reflexivity|].
    constructor; [exact I|constructor].
  - constructor; [apply plain_quiet; reflexivity|]. constructor; [exact I|]. constructor; [apply plain_quiet; reflexivity|].
    constructor; [exact I|constructor].
  - constructor; [apply bit_by_bit_quiet|]. constructor; [exact I|]. constructor; [apply plain_quiet; reflexivity|].
    constructor; [exact I|constructor].
  - vm_compute. reflexivity.
  - vm_compute. reflexivity.
Qed.

(** C103: the same calls, read slice by slice by a source that does not cut reads short. And the difference an
    empty piece makes. *)
Example C103_applies : Forall task_typed lower_calls /\ Forall (steady GetSlices) lower_calls /\ Forall nothing_empty lower_calls /\
  snd (perform_all false GetSlices lower_calls demo_mem) = snd (perform_all true TryAccess lower_calls demo_mem) /\
  snd (perform true TryAccess (LoadDtb 0x20000 (plain_reader [])) demo_mem) = Done (Err (LPe ReadDtbImage)) /\
  snd (perform true GetSlices (LoadDtb 0x20000 (plain_reader [])) demo_mem) = Done (Ok tt).
Proof.
  split; [apply C102_applies|]. split; [|split; [|split; [vm_compute; reflexivity|split; vm_compute; reflexivity]]].
  - constructor; [apply plain_quiet; reflexivity|]. constructor; [exact I|]. constructor; [apply plain_quiet; reflexivity|].
    constructor; [exact I|constructor].
  - constructor; [exact I|]. constructor; [exact I|]. constructor; [discriminate|]. constructor; [discriminate|constructor].
Qed.
