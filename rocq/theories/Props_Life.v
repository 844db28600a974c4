(** * Props_Life: properties C88 (command line) and C89 (boot parameters), from constructor to guest memory. *)
From Verif Require Import Base Base_proofs Io Mem SpecMem Mem_proofs SpecFile File_proofs Text Cmdline SpecCmdline Text_proofs
  Cmdline_proofs Cmdline_proofs2 Cmdline_proofs3 Props_Cmdline Loader Props_Loader BootParams SpecBoot Configurators SpecVmm
  Demo_elf Vmm_proofs Props_Vmm SpecHistory Props_History SpecDecide Props_Decide SpecParams Props_Params SpecEffect Effect_proofs Props_Effect SpecLife.

(** What the crate does. *)
Definition crate_line (bld : build) (be : backend) (k : ctor) (os : list op) (addr : N) (m : gmem) : option (line_story * gmem) :=
  match run_ctor k with
  | Err e => Some (NoLine e, m)
  | Ok c0 => let (m', o) := load_cmdline bld be m addr (run_ops bld c0 os) in Some (LineLoaded (results bld c0 os) o, m')
  | Panic _ => None
  end.
Definition configure (q : protocol) (be : backend) (p : boot_info) (m : gmem) : gmem * outcome berror unit :=
  match q with Linux => linux_write_bootparams be p m | Fdt => fdt_write_bootparams be p m | Pvh => pvh_write_bootparams be p m end.
Definition crate_boot (bld : build) (be : backend) (h : bytes) (a : N) (cs : list bcall) (q : protocol) (m : gmem) : params_story * gmem :=
  match crate_params bld (bp_new h a) cs with
  | (rs, None) => (AbortedAfter rs, m)
  | (rs, Some p) => let (m', o) := configure q be p m in (Wrote rs o, m')
  end.

Lemma whole_part (l : bytes) : part l 0 (lenN l) = l.
Proof. rewrite part_slice. apply slice_full. Qed.
Lemma poured_end m a bs m1 m2 : mem_same m1 m2 -> poured m a bs m1 -> poured m a bs m2.
Proof.
  intros (R & B) (k & K1 & K2 & K3 & K4 & K5). exists k. split; [exact K1|]. split; [exact K2|]. split; [exact K3|].
  split; [congruence|]. intros x. now rewrite B.
Qed.
Lemma text_obeys bld be addr c m m' o : wf_mem m = true -> load_cmdline bld be m addr c = (m', o) ->
  forall y m2, text_says addr m (as_cstring c) y m2 <-> y = o /\ mem_same m' m2.
Proof.
  intros Hw H.
  assert (P : perform bld be (LoadCmdline addr c) m = (m', Done o)) by (cbn [perform]; now rewrite H).
  assert (Full : forall s m2, range_backed m addr (lenN s + 1) ->
    (mem_is_overlay m m2 [(addr, s ++ [x00])] <-> poured m addr (s ++ [x00]) m2)).
  { intros s m2 R. assert (L : lenN (s ++ [x00]) = lenN s + 1) by (rewrite lenN_app; reflexivity). split.
    - intros (Rg & O). exists (lenN s + 1). split; [lia|]. split; [exact R|]. split; [lia|]. split; [exact Rg|].
      intros x. rewrite (O x). unfold overlay. cbn [fold_left fst snd]. f_equal. rewrite <- L. symmetry. apply whole_part.
    - intros (k & K1 & K2 & K3 & K4 & K5). split; [exact K4|]. assert (k = lenN s + 1) as ->.
      { destruct (N.eq_dec k (lenN s + 1)) as [E|E]; [exact E|]. exfalso. apply K3; [lia|]. apply R; lia. }
      intros x. rewrite K5. unfold overlay. cbn [fold_left fst snd]. f_equal. rewrite <- L. apply whole_part. }
  intros y m2.
  pose proof (C86_contract bld be (LoadCmdline addr c) m m' (Done o) Hw I I P (Done y) m2) as X.
  transitivity (Done y = Done o /\ mem_same m' m2); [|split; [intros (E & S0); split; [now injection E|exact S0]|intros (-> & S0); auto]].
  rewrite <- X. split.
  - intros T. inversion T as [e m3 E S0|s m3 E N0 S0|s m3 E R0 N0 Q|s m3 E R0 O]; subst.
    + exists []. split; [apply say_cmdline; now apply cs_text with e|]. split; [reflexivity|exact S0].
    + exists []. split; [apply say_cmdline; now apply cs_past with s|]. split; [reflexivity|exact S0].
    + exists [(addr, s ++ [x00])]. split; [apply say_cmdline; now apply cs_hole with s|]. split; [exists s; auto|now apply one_piece].
    + exists [(addr, s ++ [x00])]. split; [apply say_cmdline; now apply cs_loaded with s|]. split; [exists s; auto|]. apply one_piece. apply Full; auto.
  - intros (ps & Y & T & Q). inversion Y as [| | | |? ? ? Z| | |]; subst. inversion Z as [e E|s E N0|s E R0 N0|s E R0]; subst; cbn [tried] in T.
    + subst ps. now apply ts_unfit with e.
    + subst ps. now apply ts_past with s.
    + destruct T as (s2 & E2 & ->). rewrite E in E2. injection E2 as <-. destruct Q as (n & Q1 & Q2).
      apply ts_hole with s; try assumption. exact (poured_end _ _ _ _ _ Q2 Q1).
    + destruct T as (s2 & E2 & ->). rewrite E in E2. injection E2 as <-. destruct Q as (n & Q1 & Q2).
      apply Full in Q1 as (Rg & O); [|exact R0]. destruct Q2 as (Rg2 & B2).
      apply ts_loaded with s; [exact E|exact R0|]. split; [congruence|]. intros x. now rewrite B2.
Qed.

(** ** C88: the story and the final memory are the ones of the rules, and no others. *)
Theorem C88_command_line_life : forall bld be k os addr m st m2,
  ctor_typed k -> wf_mem m = true ->
  (line_life k os addr m st m2 <-> exists m', crate_line bld be k os addr m = Some (st, m') /\ mem_same m' m2).
Proof.
  intros bld be k os addr m st m2 Ht Hw. unfold crate_line.
  destruct (ctor_obeys k Ht) as [(e & -> & C)|(c & E & Hc & C)].
  - split.
    + intros H. inversion H as [e' m3 C' S0|b0 i0 rs b i o m3 C' R T]; subst.
      * pose proof (ctor_det _ _ _ C C') as X. injection X as <-. exists m. auto.
      * pose proof (ctor_det _ _ _ C C') as X. discriminate.
    + intros (m' & X & S0). injection X as <- <-. now constructor.
  - rewrite E. assert (Hr : reachable bld c) by (exists k, c, []; auto).
    pose proof (calls_obey bld os c Hr) as R0. rewrite Hc in R0.
    destruct (load_cmdline bld be m addr (run_ops bld c os)) as [m' o] eqn:EL.
    pose proof (text_obeys _ _ _ _ _ _ _ Hw EL) as TX. rewrite as_cstring_spec in TX. split.
    + intros H. inversion H as [e' m3 C' S0|b0 i0 rs b i o' m3 C' R T]; subst.
      * pose proof (ctor_det _ _ _ C C') as X. discriminate.
      * pose proof (ctor_det _ _ _ C C') as X. injection X as <- <-.
        destruct (calls_det _ _ _ _ _ _ _ R0 _ _ _ R) as (<- & <- & <-).
        apply TX in T as (-> & S0). exists m'. auto.
    + intros (m3 & X & S0). injection X as <- <-. econstructor; [exact C|exact R0|]. apply TX. auto.
Qed.

(** ** C89 *)
Lemma fresh_sized h a : sized (bp_new h a).
Proof. intros []; split; [vm_compute; discriminate|discriminate|vm_compute; discriminate|discriminate]. Qed.
Lemma configure_perform bld be q p m : perform bld be (write_of q p) m = let (m', o) := configure q be p m in (m', Written o).
Proof. destruct q; reflexivity. Qed.
Lemma write_typed q p : task_typed (write_of q p).
Proof. destruct q; exact I. Qed.
Lemma write_steady be q p : steady be (write_of q p).
Proof. destruct q; exact I. Qed.

Theorem C89_boot_parameters_life : forall bld be h a cs q m st m2,
  Forall call_sized cs -> wf_mem m = true ->
  (params_life be h a cs q m st m2 <-> exists m', crate_boot bld be h a cs q m = (st, m') /\ mem_same m' m2).
Proof.
  intros bld be h a cs q m st m2 Hc Hw. unfold crate_boot.
  destruct (crate_params bld (bp_new h a) cs) as [rs fin] eqn:E.
  pose proof (fun rs' fin' => C80_boot_parameters bld (bp_new h a) cs rs' fin' (fresh_sized h a) Hc) as B. rewrite E in B.
  destruct fin as [p|].
  - destruct (configure q be p m) as [m' o] eqn:EC.
    assert (P : perform bld be (write_of q p) m = (m', Written o)) by (rewrite configure_perform, EC; reflexivity).
    pose proof (C86_contract _ _ _ _ _ _ Hw (write_typed q p) (write_steady be q p) P) as X. split.
    + intros H. inversion H as [rs' m3 R S0|rs' p' o' ps m3 R Y T Q]; subst.
      * apply B in R. discriminate.
      * apply B in R. injection R as <- <-. destruct (proj1 (X (Written o') m2)) as (Z & S0); [eauto|]. injection Z as ->. eauto.
    + intros (m3 & Z & S0). injection Z as <- <-. destruct (proj2 (X (Written o) m2)) as (ps & Y & T & Q); [auto|].
      apply pl_written with p ps; try assumption. now apply B.
  - split.
    + intros H. inversion H as [rs' m3 R S0|rs' p' o' ps m3 R Y T Q]; subst.
      * apply B in R. injection R as <-. eauto.
      * apply B in R. discriminate.
    + intros (m3 & Z & S0). injection Z as <- <-. apply pl_aborted; [now apply B|exact S0].
Qed.

(** A line of eight bytes and its NUL, three of them before the end of the first region; on fresh parameters
    without a memory map PVH refuses; with an entry the start info follows. *)
Example C88_applies : exists m',
  line_life (New 64) [OpInsert (txt "a b") (txt "c"); OpInsert (txt "k") (txt "v"); OpInit (txt "i")] 0x8000 demo_mem
    (LineLoaded [Err HasSpace; Ok tt; Ok tt] (Ok tt)) m' /\ peek m' 0x7fff 11 = [xff] ++ utf8 (txt "k=v -- i") ++ [x00; xff].
Proof.
  destruct (crate_line true TryAccess (New 64) [OpInsert (txt "a b") (txt "c"); OpInsert (txt "k") (txt "v"); OpInit (txt "i")] 0x8000 demo_mem) as [[st m']|] eqn:E;
    [|vm_compute in E; discriminate E].
  exists m'. assert (st = LineLoaded [Err HasSpace; Ok tt; Ok tt] (Ok tt)) as ->.
  { assert (X : option_map fst (crate_line true TryAccess (New 64) [OpInsert (txt "a b") (txt "c"); OpInsert (txt "k") (txt "v"); OpInit (txt "i")] 0x8000 demo_mem) = Some st) by now rewrite E.
    vm_compute in X. now injection X. }
  split; [apply (C88_command_line_life true TryAccess); [reflexivity|reflexivity|]; exists m'; split; [exact E|apply mem_same_refl]|].
  assert (X : option_map (fun q => peek (snd q) 0x7fff 11) (crate_line true TryAccess (New 64) [OpInsert (txt "a b") (txt "c"); OpInsert (txt "k") (txt "v"); OpInit (txt "i")] 0x8000 demo_mem) = Some (peek m' 0x7fff 11)) by now rewrite E.
  match type of X with ?l = _ => assert (Y : l = Some ([xff] ++ utf8 (txt "k=v -- i") ++ [x00; xff])) by (vm_compute; reflexivity) end.
  rewrite Y in X. exact (eq_sym (f_equal (fun o => match o with Some z => z | None => [] end) X)).
Qed.
Example C88_hole : forall m', line_life (New 64) [OpInsert (txt "k") (txt "v")] 0xfffe demo_mem (LineLoaded [Ok tt] (Err CommandLineCopy)) m' ->
  peek m' 0xfffd 3 = [xff; x6b; x3d].
Proof.
  intros m' H. apply (C88_command_line_life true TryAccess) in H as (m1 & E & _ & B); [|reflexivity|reflexivity].
  assert (X : option_map (fun q => peek (snd q) 0xfffd 3) (crate_line true TryAccess (New 64) [OpInsert (txt "k") (txt "v")] 0xfffe demo_mem) = Some (peek m1 0xfffd 3)) by now rewrite E.
  match type of X with ?l = _ => assert (Y : l = Some [xff; x6b; x3d]) by (vm_compute; reflexivity) end.
  rewrite Y in X. injection X as X1 X2 X3. unfold peek. cbn. rewrite !B, X1, X2, X3. reflexivity.
Qed.
Example C89_applies : forall m', mem_same demo_mem m' ->
  params_life TryAccess [x01; x02] 0x7000 [] Pvh demo_mem (Wrote [] (Err (BPvh MemmapTableMissing))) m' /\
  params_life TryAccess [x01; x02] 0x7000 [BAdd Sections [xaa] None] Pvh demo_mem
    (Wrote [Refused MissingStartAddress] (Err (BPvh MemmapTableAddressMissing))) m'.
Proof.
  intros m' S0. split.
  - apply pl_written with (mkBoot [x01; x02] 0x7000 None None None None) []; [constructor| |reflexivity|exact S0].
    apply say_pvh, vs_no_map. reflexivity.
  - apply pl_written with (mkBoot [x01; x02] 0x7000 (Some []) None None None) []; [| |reflexivity|exact S0].
    + eapply bsay_call; [apply says_add_section, add_nowhere; reflexivity|discriminate|constructor].
    + apply say_pvh. apply vs_no_map_addr with []; reflexivity.
Qed.
