(** * Props_Vmm: properties of whole preparation sequences (C56-C60). *)
From Coq Require Import Permutation.
From Verif Require Import Base Io Mem SpecMem Mem_proofs Layout SpecFile File_proofs Text Cmdline SpecCmdline Loader Elf SpecElf
  BzImage SpecBz Bz_proofs Pe SpecPe Pe_proofs BootParams Configurators SpecBoot Elf_proofs2 Demo_elf
  Props_Loader Props_Elf Props_Bz Props_Pe Props_Config SpecVmm Vmm_proofs.

Lemma part_len f o n : o + n <= lenN f -> lenN (part f o n) = n.
Proof. intros H. unfold part, lenN in *. rewrite firstn_length, skipn_length. lia. Qed.

Lemma overlay_at f g segs x : f x = g x -> overlay f segs x = overlay g segs x.
Proof.
  revert f g. induction segs as [|s segs IH]; intros f g E; [exact E|]. cbn. apply IH. unfold put.
  destruct ((fst s <=? x) && (x <? fst s + lenN (snd s))); [reflexivity|exact E].
Qed.

Lemma single_frame m m' s : mem_is_overlay m m' [s] -> same_outside m m' (in_range (fst s) (lenN (snd s))).
Proof. destruct s as [a bs]. apply overlay_one_frame. Qed.

Lemma overlay_frame m m' segs : mem_is_overlay m m' segs ->
  same_outside m m' (fun x => exists s, In s segs /\ in_range (fst s) (lenN (snd s)) x).
Proof.
  intros (R & B). split; [exact R|]. intros x H. rewrite B. apply overlay_out. intros a bs Hs Hr. apply H. exists (a, bs). auto.
Qed.

(** ** C56 *)
Theorem C56_success_writes : forall bld be t m m' x,
  wf_mem m = true -> task_typed t -> perform bld be t m = (m', x) -> success x ->
  mem_is_overlay m m' (writes t x).
Proof.
  intros bld be t m m' x Hw Ht H Hs. destruct t; cbn [perform task_typed] in *.
  - destruct (elf_load bld be off highmem image m) as [[r' m1] o] eqn:E. inversion H; subst m1 x. clear H.
    destruct Hs as [(res & Hx)|[Hx|Hx]]; try discriminate. inversion Hx; subst o.
    apply (C20_elf_segments_placed bld be off highmem image m m' res). split; [exact Ht|]. split; [exact Hw|]. eauto.
  - destruct (bz_load be off highmem image m) as [[r' m1] o] eqn:E. inversion H; subst m1 x. clear H.
    destruct Hs as [(res & Hx)|[Hx|Hx]]; try discriminate. inversion Hx; subst o. destruct Ht as (T1 & T2 & T3).
    destruct (C35_bz_payload_placed be off highmem image m m' res) as (_ & Hov & _); [|exact Hov].
    split; [exact T1|]. split; [exact T2|]. split; [exact Hw|]. split; [exact T3|]. eauto.
  - destruct (pe_load a be off highmem image m) as [[r' m1] o] eqn:E. inversion H; subst m1 x. clear H.
    destruct Hs as [(res & Hx)|[Hx|Hx]]; try discriminate. inversion Hx; subst o.
    destruct (C39_pe_placement a be off highmem image m m' res) as (Hl & _ & _ & _ & _ & Hov).
    { split; [exact Ht|]. split; [exact Hw|]. eauto. }
    cbn [writes]. unfold pe_load_addr, pe_base. rewrite <- Hl. exact Hov.
  - destruct (load_dtb be addr image m) as [[r' m1] o] eqn:E. inversion H; subst m1 x. clear H.
    destruct Hs as [(res & Hx)|[Hx|Hx]]; try discriminate. inversion Hx; subst o.
    destruct (C42_dtb_ok be addr image m m') as (_ & Hov & _); [|exact Hov]. split; [exact Ht|]. split; [exact Hw|]. eauto.
  - destruct (load_cmdline bld be m addr c) as [m1 o] eqn:E. inversion H; subst m1 x. clear H.
    destruct Hs as [(res & Hx)|[Hx|Hx]]; try discriminate. inversion Hx; subst o.
    destruct (C18_load_cmdline_writes bld be m addr c m' Hw E) as (s & Hc & _ & Hov & _). cbn [writes]. rewrite Hc. exact Hov.
  - destruct (linux_write_bootparams be p m) as [m1 o] eqn:E. inversion H; subst m1 x. clear H.
    destruct Hs as [(res & Hx)|[Hx|Hx]]; try discriminate. inversion Hx; subst o.
    destruct (C43_linux_write be p m m' (Ok tt) Hw E) as (H1 & _). now destruct (H1 eq_refl).
  - destruct (fdt_write_bootparams be p m) as [m1 o] eqn:E. inversion H; subst m1 x. clear H.
    destruct Hs as [(res & Hx)|[Hx|Hx]]; try discriminate. inversion Hx; subst o.
    destruct (C43_fdt_write be p m m' (Ok tt) Hw E) as (H1 & _). now destruct (H1 eq_refl).
  - destruct (pvh_write_bootparams be p m) as [m1 o] eqn:E. inversion H; subst m1 x. clear H.
    destruct Hs as [(res & Hx)|[Hx|Hx]]; try discriminate. inversion Hx; subst o.
    destruct (C44_pvh_writes be p m m' Hw E) as (Hov & _). exact Hov.
Qed.

Lemma seen_setup_size_good f k : bz_header_good (seen f k) -> bz_setup_size (seen f k) = bz_setup_size f.
Proof. intros H. apply seen_setup_size. pose proof (seen_good _ _ H). lia. Qed.

Lemma bz_frame be off h r m r' m' o : wf_reader r -> 0x1f1 <= rd_maxpos r -> wf_mem m = true ->
  bz_load be off h r m = (r', m', o) -> same_outside m m' (touches (LoadBz off h r)).
Proof.
  intros W Mp Hw H. destruct (bz_load_spec _ _ _ _ _ _ _ _ W Mp Hw H) as (_ & R & P).
  destruct P as [(_ & -> & _)|(k & Hk & P)]; [apply same_outside_refl|].
  destruct P as [(_ & _ & ->)|[(_ & _ & _ & ->)|[(_ & _ & _ & _ & ->)|(Hg & Hs & _ & P)]]]; try apply same_outside_refl.
  destruct P as [(_ & _ & ->)|(F & _)]; [apply same_outside_refl|].
  eapply same_outside_mono; [|exact F]. intros x Hx. exists k. split; [exact Hk|].
  unfold payload. rewrite <- (seen_setup_size_good _ _ Hg). rewrite part_len by lia. exact Hx.
Qed.

Lemma pvh_frame be p m m' o : wf_mem m = true -> pvh_write_bootparams be p m = (m', o) ->
  same_outside m m' (touches (WritePvh p)).
Proof.
  intros Hw H. unfold touches, pvh_areas. cbv beta iota.
  assert (One : forall a (bs : bytes) m1 (segs : list (N * bytes)), In (a, bs) segs -> same_outside m m1 (in_range a (lenN bs)) ->
    same_outside m m1 (fun x => exists s, In s segs /\ in_range (fst s) (lenN (snd s)) x)).
  { intros a bs m1 segs Hi. apply same_outside_mono. intros x Hx. exists (a, bs). auto. }
  assert (Sub : forall m1 (s1 s2 : list (N * bytes)), (forall s, In s s1 -> In s s2) -> mem_is_overlay m m1 s1 ->
    same_outside m m1 (fun x => exists s, In s s2 /\ in_range (fst s) (lenN (snd s)) x)).
  { intros m1 s1 s2 Hi Ho. eapply same_outside_mono; [|exact (overlay_frame _ _ _ Ho)]. intros x (s & Hs & Hx). exists s. auto. }
  destruct (pvh_cases be p m m' o Hw H) as [(_ & _ & ->)|(v & Ev & C)]; [apply same_outside_refl|].
  destruct C as [(_ & _ & ->)|(s & Es & C)]; [apply same_outside_refl|]. rewrite Ev, Es.
  set (tail := match modules_start p with Some a => match modules p with Some w => [(a, w)] | None => [] end | None => [] end).
  destruct C as [(_ & _ & ->)|[(_ & _ & _ & F)|(_ & C)]]; [apply same_outside_refl| |].
  { eapply One; [|exact F]. left. reflexivity. }
  cbv zeta in C. destruct C as [(_ & _ & O)|[(_ & _ & _ & m1 & O & F)|(_ & C)]].
  { eapply Sub; [|exact O]. intros y [ <- |[]]. left. reflexivity. }
  { eapply same_outside_trans; [eapply Sub; [|exact O]; intros y [ <- |[]]; left; reflexivity|].
    eapply same_outside_mono; [|exact F]. intros x Hx. exists (header_start p, header p). split; [right; left; reflexivity|exact Hx]. }
  assert (Two : forall m1, mem_is_overlay m m1 [(s, v); (header_start p, header p)] ->
    same_outside m m1 (fun x => exists s0, In s0 ([(s, v)] ++ [(header_start p, header p)] ++ tail) /\ in_range (fst s0) (lenN (snd s0)) x)).
  { intros m1 O. eapply Sub; [|exact O]. intros y [ <- |[ <- |[]]]; [left; reflexivity|right; left; reflexivity]. }
  destruct C as [(_ & _ & O)|(w & Ew & C)]; [now apply Two|].
  destruct C as [(_ & _ & O)|(a & Ea & C)]; [now apply Two|].
  destruct C as [(_ & _ & m2 & O & F)|(_ & _ & O)].
  - eapply same_outside_trans; [exact (Two _ O)|]. eapply same_outside_mono; [|exact F]. intros x Hx. exists (a, w).
    split; [|exact Hx]. subst tail. rewrite Ea, Ew. right; right; left; reflexivity.
  - eapply Sub; [|exact O]. intros y Hy. subst tail. rewrite Ea, Ew. exact Hy.
Qed.

Theorem C56_frame : forall bld be t m m' x,
  wf_mem m = true -> task_typed t -> perform bld be t m = (m', x) ->
  same_outside m m' (touches t) /\ ~ panics x.
Proof.
  intros bld be t m m' x Hw Ht H. destruct t; cbn [perform task_typed] in *.
  - destruct (elf_load bld be off highmem image m) as [[r' m1] o] eqn:E. inversion H; subst m1 x. clear H. split.
    + apply (C25_elf_frame bld be off highmem image m m' o). split; [exact Ht|]. split; [exact Hw|]. eauto.
    + intros (p & [Hx|[Hx|Hx]]); inversion Hx. now apply (C30_elf_no_panic _ _ _ _ _ _ _ _ _ Ht Hw E p).
  - destruct (bz_load be off highmem image m) as [[r' m1] o] eqn:E. inversion H; subst m1 x. clear H. destruct Ht as (T1 & T2 & T3).
    split; [exact (bz_frame _ _ _ _ _ _ _ _ T1 T2 Hw E)|].
    intros (p & [Hx|[Hx|Hx]]); inversion Hx. subst o.
    destruct (C37_bz_errors_frame be off highmem image m m' (Panic p)) as (Hn & _); [|now apply (Hn p)].
    split; [exact T1|]. split; [exact T2|]. split; [exact Hw|]. split; [exact T3|]. eauto.
  - destruct (pe_load a be off highmem image m) as [[r' m1] o] eqn:E. inversion H; subst m1 x. clear H.
    assert (Hr : pe_runs a be off highmem image m m' o) by (split; [exact Ht|]; split; [exact Hw|]; eauto).
    destruct (C40_pe_errors_frame _ _ _ _ _ _ _ _ Hr) as (Hn & He). split.
    + destruct o as [res|e|p].
      * destruct (C39_pe_placement _ _ _ _ _ _ _ _ Hr) as (Hl & _ & _ & _ & _ & Hov). apply overlay_one_frame in Hov.
        unfold touches, pe_load_addr, pe_base. rewrite <- Hl. exact Hov.
      * destruct (He e eq_refl) as [ -> |F]; [apply same_outside_refl|exact F].
      * now destruct (Hn p).
    + intros (p & [Hx|[Hx|Hx]]); inversion Hx. now apply (Hn p).
  - destruct (load_dtb be addr image m) as [[r' m1] o] eqn:E. inversion H; subst m1 x. clear H.
    destruct (C42_dtb_frame be addr image m m' o) as (F & Hn). { split; [exact Ht|]. split; [exact Hw|]. eauto. }
    split; [exact F|]. intros (p & [Hx|[Hx|Hx]]); inversion Hx. now apply (Hn p).
  - destruct (load_cmdline bld be m addr c) as [m1 o] eqn:E. inversion H; subst m1 x. clear H. split.
    + unfold touches. destruct (load_cmdline_cases _ _ _ _ _ _ _ Hw E) as [(e & _ & _ & ->)|(s & Es & C)]; [apply same_outside_refl|].
      rewrite Es. destruct C as [(_ & _ & ->)|(_ & _ & Hws & _)]; [apply same_outside_refl|].
      pose proof (proj1 (write_slice_frame _ _ _ _ _ _ Hw Hws)) as F. unfold lenN in F. rewrite app_length in F. cbn in F.
      unfold lenN. replace (N.of_nat (length s) + 1) with (N.of_nat (length s + 1)) by lia. exact F.
    + intros (p & [Hx|[Hx|Hx]]); inversion Hx. now apply (C19_load_cmdline_no_panic _ _ _ _ _ _ _ p Hw E).
  - destruct (linux_write_bootparams be p m) as [m1 o] eqn:E. inversion H; subst m1 x. clear H.
    destruct (C43_linux_write be p m m' o Hw E) as (_ & _ & _ & _ & _ & Hc & F). split; [exact F|].
    intros (q & [Hx|[Hx|Hx]]); inversion Hx; subst o. destruct Hc as [?|[?|?]]; discriminate.
  - destruct (fdt_write_bootparams be p m) as [m1 o] eqn:E. inversion H; subst m1 x. clear H.
    destruct (C43_fdt_write be p m m' o Hw E) as (_ & _ & _ & _ & _ & Hc & F). split; [exact F|].
    intros (q & [Hx|[Hx|Hx]]); inversion Hx; subst o. destruct Hc as [?|[?|?]]; discriminate.
  - destruct (pvh_write_bootparams be p m) as [m1 o] eqn:E. inversion H; subst m1 x. clear H. split; [exact (pvh_frame _ _ _ _ _ Hw E)|].
    intros (q & [Hx|[Hx|Hx]]); inversion Hx; subst o.
    destruct (pvh_cases _ _ _ _ _ Hw E) as [(_ & Ho & _)|(v & _ & C)]; [discriminate|].
    destruct C as [(_ & Ho & _)|(s & _ & C)]; [discriminate|].
    destruct C as [(_ & Ho & _)|[(_ & _ & Ho & _)|(_ & C)]]; try discriminate.
    cbv zeta in C. destruct C as [(_ & Ho & _)|[(_ & _ & Ho & _)|(_ & C)]]; try discriminate.
    destruct C as [(_ & Ho & _)|(w & _ & C)]; try discriminate.
    destruct C as [(_ & Ho & _)|(a & _ & C)]; try discriminate.
    destruct C as [(_ & Ho & _)|(_ & Ho & _)]; discriminate.
Qed.

Theorem C56_writes_inside : forall bld be t m m' x,
  wf_mem m = true -> task_typed t -> perform bld be t m = (m', x) -> success x ->
  forall s y, In s (writes t x) -> in_range (fst s) (lenN (snd s)) y -> touches t y.
Proof.
  intros bld be t m m' x Hw Ht H Hs s y Hi Hy. destruct t; cbn [perform task_typed] in *.
  - destruct (elf_load bld be off highmem image m) as [[r' m1] o] eqn:E. inversion H; subst m1 x. clear H.
    destruct Hs as [(res & Hx)|[Hx|Hx]]; try discriminate. inversion Hx; subst o.
    cbn [writes] in Hi. unfold segs_of in Hi. apply in_map_iff in Hi as (p & <- & Hp). unfold loaded in Hp. apply filter_In in Hp as (Hp & Hl).
    exists p. split; [exact Hp|]. split; [exact Hl|]. unfold seg_of in Hy. cbn [fst snd] in Hy.
    rewrite part_len in Hy; [exact Hy|].
    destruct (C26_elf_ok_inside bld be off highmem image m m' res) as (_ & Hin); [split; [exact Ht|]; split; [exact Hw|]; eauto|].
    now apply Hin.
  - destruct (bz_load be off highmem image m) as [[r' m1] o] eqn:E. inversion H; subst m1 x. clear H.
    destruct Hs as [(res & Hx)|[Hx|Hx]]; try discriminate. inversion Hx; subst o. destruct Ht as (T1 & T2 & T3).
    destruct (bz_load_spec _ _ _ _ _ _ _ _ T1 T2 Hw E) as (_ & _ & P).
    destruct P as [(_ & _ & [P|[P|P]])|(k & Hk & P)]; try discriminate.
    destruct P as [(_ & P & _)|[(_ & _ & P & _)|[(_ & _ & _ & P & _)|(Hg & Hsz & _ & P)]]]; try discriminate.
    destruct P as [(_ & P & _)|(_ & [(P & _)|(_ & _ & [(_ & P)|(_ & P)])])]; try discriminate.
    inversion P; subst res. cbn [writes kernel_load] in Hi. destruct Hi as [ <- |[]]. cbn [fst snd] in Hy.
    exists k. split; [exact Hk|]. exact Hy.
  - destruct (pe_load a be off highmem image m) as [[r' m1] o] eqn:E. inversion H; subst m1 x. clear H.
    destruct Hs as [(res & Hx)|[Hx|Hx]]; try discriminate. inversion Hx; subst o. cbn [writes] in Hi. destruct Hi as [ <- |[]]. exact Hy.
  - destruct (load_dtb be addr image m) as [[r' m1] o] eqn:E. inversion H; subst m1 x. clear H.
    destruct Hs as [(res & Hx)|[Hx|Hx]]; try discriminate. inversion Hx; subst o. cbn [writes] in Hi. destruct Hi as [ <- |[]]. exact Hy.
  - destruct (load_cmdline bld be m addr c) as [m1 o] eqn:E. inversion H; subst m1 x. clear H.
    destruct Hs as [(res & Hx)|[Hx|Hx]]; try discriminate. inversion Hx; subst o. cbn [writes touches] in *.
    destruct (as_cstring c) as [b|e|p]; try now destruct Hi. destruct Hi as [ <- |[]]. cbn [fst snd] in Hy.
    unfold lenN in *. rewrite app_length in Hy. cbn in Hy. unfold in_range in *. lia.
  - destruct (linux_write_bootparams be p m) as [m1 o] eqn:E. inversion H; subst m1 x. clear H.
    destruct Hs as [(res & Hx)|[Hx|Hx]]; try discriminate. inversion Hx; subst o. cbn [writes] in Hi. destruct Hi as [ <- |[]]. exact Hy.
  - destruct (fdt_write_bootparams be p m) as [m1 o] eqn:E. inversion H; subst m1 x. clear H.
    destruct Hs as [(res & Hx)|[Hx|Hx]]; try discriminate. inversion Hx; subst o. cbn [writes] in Hi. destruct Hi as [ <- |[]]. exact Hy.
  - destruct (pvh_write_bootparams be p m) as [m1 o] eqn:E. inversion H; subst m1 x. clear H.
    destruct Hs as [(res & Hx)|[Hx|Hx]]; try discriminate. inversion Hx; subst o. exists s. auto.
Qed.

(** ** C57: guest memory contents never influence a call *)
Theorem C57_contents_irrelevant : forall bld be t m1 m2 m1' m2' x1 x2,
  regions m1 = regions m2 -> perform bld be t m1 = (m1', x1) -> perform bld be t m2 = (m2', x2) ->
  x1 = x2 /\
  (forall a, gm_byte m1' a = gm_byte m2' a \/ gm_byte m1' a = gm_byte m1 a /\ gm_byte m2' a = gm_byte m2 a) /\
  (forall a, gm_byte m1 a = gm_byte m2 a -> gm_byte m1' a = gm_byte m2' a).
Proof.
  intros bld be t m1 m2 m1' m2' x1 x2 R E1 E2.
  destruct (perform_blind bld be t (regions m1)) as (x & segs & H).
  destruct (H m1 eq_refl) as (n1 & F1 & O1). destruct (H m2 (eq_sym R)) as (n2 & F2 & O2).
  rewrite E1 in F1. rewrite E2 in F2. inversion F1; inversion F2; subst. split; [reflexivity|].
  destruct O1 as ((_ & B1) & _), O2 as ((_ & B2) & _). split.
  - intros a. rewrite B1, B2. clear. revert m1 m2. 
    assert (G : forall segs (f g : N -> byte), overlay f segs a = overlay g segs a \/ (overlay f segs a = f a /\ overlay g segs a = g a)).
    { clear. induction segs as [|s segs IH]; intros f g; [right; split; reflexivity|]. cbn.
      set (f' := put f (fst s) (snd s)). set (g' := put g (fst s) (snd s)).
      destruct ((fst s <=? a) && (a <? fst s + lenN (snd s))) eqn:E.
      - left. apply overlay_at. subst f' g'. unfold put. now rewrite E.
      - destruct (IH f' g') as [I|(I1 & I2)]; [left; exact I|]. right. fold (overlay f' segs) (overlay g' segs). rewrite I1, I2. subst f' g'. unfold put. now rewrite E. }
    intros m1 m2. apply G.
  - intros a Ea. rewrite B1, B2. now apply overlay_at.
Qed.

(** ** C58: what one call stored is still there after later calls *)
Lemma perform_all_frame bld be ts : forall m m' xs, wf_mem m = true -> Forall task_typed ts ->
  perform_all bld be ts m = (m', xs) ->
  wf_mem m' = true /\ same_outside m m' (fun y => exists t, In t ts /\ touches t y).
Proof.
  induction ts as [|t ts IH]; intros m m' xs Hw Ht H; cbn in H.
  - inversion H; subst. split; [exact Hw|apply same_outside_refl].
  - destruct (perform bld be t m) as [m1 x] eqn:E. destruct (perform_all bld be ts m1) as [m2 xs2] eqn:E2. inversion H; subst.
    inversion Ht; subst. destruct (C56_frame _ _ _ _ _ _ Hw H2 E) as (F & _).
    assert (Hw1 : wf_mem m1 = true) by (rewrite <- Hw; apply wf_mem_regions; apply F).
    destruct (IH _ _ _ Hw1 H3 E2) as (Hw2 & F2). split; [exact Hw2|].
    eapply same_outside_trans; eapply same_outside_mono; [|exact F| |exact F2].
    + intros y Hy. exists t. split; [left; reflexivity|exact Hy].
    + intros y (u & Hu & Hy). exists u. split; [right; exact Hu|exact Hy].
Qed.

Lemma perform_all_app bld be ts1 : forall ts2 m,
  perform_all bld be (ts1 ++ ts2) m =
  let (m1, xs1) := perform_all bld be ts1 m in let (m2, xs2) := perform_all bld be ts2 m1 in (m2, xs1 ++ xs2).
Proof.
  induction ts1 as [|t ts1 IH]; intros ts2 m; cbn.
  - destruct (perform_all bld be ts2 m). reflexivity.
  - destruct (perform bld be t m) as [m1 x]. rewrite IH. destruct (perform_all bld be ts1 m1) as [m2 xs1].
    destruct (perform_all bld be ts2 m2) as [m3 xs2]. reflexivity.
Qed.
Lemma perform_all_length bld be ts : forall m m' xs, perform_all bld be ts m = (m', xs) -> length xs = length ts.
Proof.
  induction ts as [|t ts IH]; intros m m' xs H; cbn in H; [inversion H; reflexivity|].
  destruct (perform bld be t m) as [m1 x]. destruct (perform_all bld be ts m1) as [m2 xs2] eqn:E. inversion H; subst. cbn. f_equal. eauto.
Qed.

Theorem C58_pieces_survive : forall bld be before t after m m' xs x pre a bs post,
  wf_mem m = true -> Forall task_typed (before ++ t :: after) ->
  perform_all bld be (before ++ t :: after) m = (m', xs) ->
  nth_error xs (length before) = Some x -> success x ->
  writes t x = pre ++ (a, bs) :: post ->
  (forall s, In s post -> disjoint (a, bs) s) ->
  (forall u y, In u after -> touches u y -> ~ in_range a (lenN bs) y) ->
  holds_at m' a bs.
Proof.
  intros bld be before t after m m' xs x pre a bs post Hw Ht H Hx Hs Hwr Hpost Hafter.
  rewrite perform_all_app in H. destruct (perform_all bld be before m) as [m1 xs1] eqn:E1. cbn in H.
  destruct (perform bld be t m1) as [m2 x2] eqn:E2. destruct (perform_all bld be after m2) as [m3 xs3] eqn:E3. inversion H; subst m3 xs.
  apply Forall_app in Ht as (Ht1 & Ht2). inversion Ht2; subst.
  rewrite nth_error_app2 in Hx by (rewrite (perform_all_length _ _ _ _ _ _ E1); lia).
  rewrite (perform_all_length _ _ _ _ _ _ E1), Nat.sub_diag in Hx. cbn in Hx. inversion Hx; subst x2.
  destruct (perform_all_frame _ _ _ _ _ _ Hw Ht1 E1) as (Hw1 & _).
  pose proof (C56_success_writes _ _ _ _ _ _ Hw1 H2 E2 Hs) as Ho. rewrite Hwr in Ho.
  assert (Hw2 : wf_mem m2 = true) by (rewrite <- Hw1; apply wf_mem_regions; apply Ho).
  destruct (perform_all_frame _ _ _ _ _ _ Hw2 H3 E3) as (_ & _ & F).
  pose proof (overlay_holds _ _ _ _ _ _ Ho) as Hh.
  intros i b Hb. rewrite F.
  - refine (Hh _ i b Hb). intros y s Hs2 Hr. exact (Hpost s Hs2 y Hr).
  - intros (u & Hu & Hy). apply (Hafter u _ Hu Hy). unfold in_range. assert (N.to_nat i < length bs)%nat by (apply nth_error_Some; congruence).
    unfold lenN. lia.
Qed.

(** ** C59: the order of separate calls does not matter *)
Lemma separate_sym t u : separate t u -> separate u t.
Proof. intros H x Hu Ht. exact (H x Ht Hu). Qed.
Lemma all_separate_perm ts ts' : Permutation ts ts' -> all_separate ts -> all_separate ts'.
Proof.
  unfold all_separate. induction 1 as [|t l l' HP IH|t u l|l l' l'' HP1 IH1 HP2 IH2]; intros H.
  - constructor.
  - inversion H; subst. constructor; [|auto]. apply Forall_forall. intros y Hy. apply (Permutation_in y (Permutation_sym HP)) in Hy.
    rewrite Forall_forall in H2. auto.
  - inversion H as [|? ? Hu Hr]; subst. inversion Hr as [|? ? Ht Hr']; subst. inversion Hu; subst.
    constructor; [constructor; [now apply separate_sym|assumption]|]. constructor; assumption.
  - auto.
Qed.

Definition same_bytes (m m' : gmem) : Prop := regions m = regions m' /\ forall a, gm_byte m a = gm_byte m' a.

Lemma perform_all_cong bld be ts : forall m1 m2 m1' m2' xs1 xs2, same_bytes m1 m2 ->
  perform_all bld be ts m1 = (m1', xs1) -> perform_all bld be ts m2 = (m2', xs2) -> same_bytes m1' m2' /\ xs1 = xs2.
Proof.
  induction ts as [|t ts IH]; intros m1 m2 m1' m2' xs1 xs2 (R & B) H1 H2; cbn in H1, H2.
  - inversion H1; inversion H2; subst. split; [split; assumption|reflexivity].
  - destruct (perform_blind bld be t (regions m1)) as (x & segs & H).
    destruct (H m1 eq_refl) as (n1 & F1 & ((R1 & B1) & _)). destruct (H m2 (eq_sym R)) as (n2 & F2 & ((R2 & B2) & _)).
    rewrite F1 in H1. rewrite F2 in H2.
    destruct (perform_all bld be ts n1) as [k1 ys1] eqn:E1. destruct (perform_all bld be ts n2) as [k2 ys2] eqn:E2.
    inversion H1; inversion H2; subst.
    assert (SB : same_bytes n1 n2)
      by (split; [congruence|]; intros a; rewrite B1, B2; apply overlay_ext; exact B).
    destruct (IH _ _ _ _ _ _ SB E1 E2) as (S & ->). split; [exact S|reflexivity].
Qed.

Lemma swap_two bld be t u m mt mtu mu mut x1 y1 x2 y2 :
  wf_mem m = true -> task_typed t -> task_typed u -> separate t u ->
  perform bld be t m = (mt, x1) -> perform bld be u mt = (mtu, y1) ->
  perform bld be u m = (mu, y2) -> perform bld be t mu = (mut, x2) ->
  x1 = x2 /\ y1 = y2 /\ same_bytes mtu mut.
Proof.
  intros Hw Tt Tu Hsep E1 E2 E3 E4.
  destruct (C56_frame _ _ _ _ _ _ Hw Tt E1) as ((R1 & F1) & _). destruct (C56_frame _ _ _ _ _ _ Hw Tu E3) as ((R3 & F3) & _).
  assert (Hwt : wf_mem mt = true) by (rewrite <- Hw; now apply wf_mem_regions).
  assert (Hwu : wf_mem mu = true) by (rewrite <- Hw; now apply wf_mem_regions).
  destruct (C56_frame _ _ _ _ _ _ Hwt Tu E2) as ((R2 & F2) & _). destruct (C56_frame _ _ _ _ _ _ Hwu Tt E4) as ((R4 & F4) & _).
  destruct (C57_contents_irrelevant bld be t m mu mt mut x1 x2 (eq_sym R3) E1 E4) as (Hx & _ & Ct).
  destruct (C57_contents_irrelevant bld be u mt m mtu mu y1 y2 R1 E2 E3) as (Hy & _ & Cu).
  split; [exact Hx|]. split; [exact Hy|]. split; [congruence|]. intros a.
  (* no need to decide membership: argue by the double negation available on bytes *)
  destruct (Byte.byte_eq_dec (gm_byte mtu a) (gm_byte mut a)) as [E|E]; [exact E|exfalso].
  assert (Nt : ~ touches t a).
  { intros Ht. apply E. rewrite (F2 a) by (now apply Hsep). apply Ct. symmetry. apply F3. now apply Hsep. }
  apply E. rewrite (F4 a Nt). apply Cu. now apply F1.
Qed.

Theorem C59_order_irrelevant : forall bld be ts ts' m m1 m2 xs1 xs2,
  wf_mem m = true -> Forall task_typed ts -> all_separate ts -> Permutation ts ts' ->
  perform_all bld be ts m = (m1, xs1) -> perform_all bld be ts' m = (m2, xs2) ->
  Permutation (combine ts xs1) (combine ts' xs2) /\
  regions m1 = regions m2 /\ forall a, gm_byte m1 a = gm_byte m2 a.
Proof.
  intros bld be ts ts' m m1 m2 xs1 xs2 Hw Ht Hs HP. revert m m1 m2 xs1 xs2 Hw Ht Hs.
  induction HP as [|t l l' HP IH|t u l|l l' l'' HP1 IH1 HP2 IH2]; intros m m1 m2 xs1 xs2 Hw Ht Hs H1 H2.
  - cbn in *. inversion H1; inversion H2; subst. split; [constructor|]. split; reflexivity.
  - cbn in H1, H2. destruct (perform bld be t m) as [m0 x] eqn:E. inversion Ht as [|? ? T1 T2]; subst. inversion Hs as [|? ? S1 S2]; subst.
    destruct (perform_all bld be l m0) as [k1 ys1] eqn:E1. destruct (perform_all bld be l' m0) as [k2 ys2] eqn:E2.
    inversion H1; inversion H2; subst. destruct (C56_frame _ _ _ _ _ _ Hw T1 E) as ((R & _) & _).
    destruct (IH m0 m1 m2 ys1 ys2) as (P & RB); try assumption. { rewrite <- Hw. now apply wf_mem_regions. }
    split; [|exact RB]. cbn. now constructor.
  - cbn in H1, H2. inversion Ht as [|? ? Tu Ht']; subst. inversion Ht' as [|? ? Tt Hl]; subst.
    destruct (perform bld be u m) as [mu y] eqn:E1. destruct (perform bld be t mu) as [mut x] eqn:E2.
    destruct (perform bld be t m) as [mt x'] eqn:E3. destruct (perform bld be u mt) as [mtu y'] eqn:E4.
    destruct (perform_all bld be l mut) as [k1 ys1] eqn:E5. destruct (perform_all bld be l mtu) as [k2 ys2] eqn:E6.
    inversion H1; inversion H2; subst. inversion Hs as [|? ? S1 _]; subst. inversion S1 as [|? ? Sut _]; subst.
    destruct (swap_two bld be u t m mu mut mt mtu y x y' x' Hw Tu Tt Sut E1 E2 E3 E4) as (-> & -> & SB).
    destruct (perform_all_cong _ _ _ _ _ _ _ _ _ SB E5 E6) as (SB2 & ->). split; [cbn; apply perm_swap|exact SB2].
  - destruct (perform_all bld be l' m) as [k ys] eqn:E.
    destruct (IH1 m m1 k xs1 ys Hw Ht Hs H1 E) as (P1 & R1 & B1).
    destruct (IH2 m k m2 ys xs2 Hw) as (P2 & R2 & B2); try assumption.
    { eapply Permutation_Forall; eassumption. } { eapply all_separate_perm; eassumption. }
    split; [etransitivity; eassumption|]. split; [congruence|]. intros a. now rewrite B1.
Qed.

(** ** C60: after a failed attempt, a successful retry leaves no trace of the failure *)
Lemma overlay_covered f g segs x :
  (exists s, In s segs /\ in_range (fst s) (lenN (snd s)) x) -> overlay f segs x = overlay g segs x.
Proof.
  revert f g. induction segs as [|s segs IH]; intros f g (s0 & Hi & Hr); [destruct Hi|]. cbn.
  destruct Hi as [Hi|Hi].
  - subst s0. apply overlay_at. unfold put. destruct Hr as (Ha & Hb).
    apply N.leb_le in Ha. apply N.ltb_lt in Hb. destruct s; cbn [fst snd] in *. rewrite Ha, Hb. reflexivity.
  - apply IH. eauto.
Qed.

Lemma touched_is_written bld be t u m m' x :
  wf_mem m = true -> task_typed u -> perform bld be u m = (m', x) -> success x -> same_request t u ->
  forall y, touches t y -> exists s, In s (writes u x) /\ in_range (fst s) (lenN (snd s)) y.
Proof.
  intros Hw Ht H Hs Hq y Hy. destruct t, u; try contradiction; cbn [perform task_typed same_request touches] in *.
  - destruct (elf_load bld be off0 highmem0 image0 m) as [[r' m1] o] eqn:E. inversion H; subst m1 x. clear H.
    destruct Hs as [(res & Hx)|[Hx|Hx]]; try discriminate. inversion Hx; subst o. destruct Hq as (-> & Ed). rewrite Ed in Hy.
    destruct Hy as (p & Hp & Hl & Hr).
    destruct (C26_elf_ok_inside bld be off0 highmem0 image0 m m' res) as (_ & Hin); [split; [exact Ht|]; split; [exact Hw|]; eauto|].
    exists (seg_of (rd_data image0) off0 p). split.
    + cbn [writes]. unfold segs_of. apply in_map. unfold loaded. now apply filter_In.
    + unfold seg_of. cbn [fst snd]. rewrite part_len by auto. exact Hr.
  - destruct (bz_load be off0 highmem0 image0 m) as [[r' m1] o] eqn:E. inversion H; subst m1 x. clear H.
    destruct Hs as [(res & Hx)|[Hx|Hx]]; try discriminate. inversion Hx; subst o. destruct Hq as (-> & Ed & Hq). rewrite Ed in Hy.
    destruct Ht as (T1 & T2 & T3).
    destruct (C35_bz_payload_placed be off0 highmem0 image0 m m' res) as (_ & _ & _ & _ & _ & _ & Ho & Hn).
    { split; [exact T1|]. split; [exact T2|]. split; [exact Hw|]. split; [exact T3|]. eauto. }
    destruct Hy as (k & Hk & Hy). cbn [writes]. eexists. split; [left; reflexivity|]. cbn [fst snd].
    destruct off0 as [a|].
    + rewrite (Ho a eq_refl). exact Hy.
    + destruct (Hq eq_refl) as (N1 & N2). rewrite (Hn N2). destruct Hk as [ -> |Hk]; [|contradiction].
      cbn [bz_load_addr] in *. rewrite <- (seen_code32 (rd_data image0) 123) by lia. exact Hy.
  - destruct (pe_load a0 be off0 highmem0 image0 m) as [[r' m1] o] eqn:E. inversion H; subst m1 x. clear H.
    destruct Hs as [(res & Hx)|[Hx|Hx]]; try discriminate. inversion Hx; subst o. destruct Hq as (-> & -> & Ed). rewrite Ed in Hy.
    cbn [writes]. eexists. split; [left; reflexivity|]. exact Hy.
  - destruct (load_dtb be addr0 image0 m) as [[r' m1] o] eqn:E. inversion H; subst m1 x. clear H.
    destruct Hs as [(res & Hx)|[Hx|Hx]]; try discriminate. inversion Hx; subst o. destruct Hq as (-> & Ed). rewrite Ed in Hy.
    cbn [writes]. eexists. split; [left; reflexivity|]. exact Hy.
  - destruct (load_cmdline bld be m addr0 c0) as [m1 o] eqn:E. inversion H; subst m1 x. clear H.
    destruct Hs as [(res & Hx)|[Hx|Hx]]; try discriminate. inversion Hx; subst o. destruct Hq as (-> & Ed). rewrite Ed in Hy.
    cbn [writes]. destruct (as_cstring c0) as [s|e|p]; try contradiction. eexists. split; [left; reflexivity|]. cbn [fst snd].
    unfold lenN in *. rewrite app_length. cbn. unfold in_range in *. lia.
  - destruct (linux_write_bootparams be p0 m) as [m1 o] eqn:E. inversion H; subst m1 x. clear H.
    destruct Hs as [(res & Hx)|[Hx|Hx]]; try discriminate. inversion Hx; subst o. destruct Hq as (E1 & E2). rewrite E1, E2 in Hy.
    cbn [writes]. eexists. split; [left; reflexivity|]. exact Hy.
  - destruct (fdt_write_bootparams be p0 m) as [m1 o] eqn:E. inversion H; subst m1 x. clear H.
    destruct Hs as [(res & Hx)|[Hx|Hx]]; try discriminate. inversion Hx; subst o. destruct Hq as (E1 & E2). rewrite E1, E2 in Hy.
    cbn [writes]. eexists. split; [left; reflexivity|]. exact Hy.
  - destruct (pvh_write_bootparams be p0 m) as [m1 o] eqn:E. inversion H; subst m1 x. clear H.
    destruct Hs as [(res & Hx)|[Hx|Hx]]; try discriminate. inversion Hx; subst o. subst p0. exact Hy.
Qed.

Theorem C60_retry : forall bld be t u m m1 m2 x1 x2,
  wf_mem m = true -> task_typed t -> task_typed u -> same_request t u ->
  perform bld be t m = (m1, x1) -> perform bld be u m1 = (m2, x2) -> success x2 ->
  mem_is_overlay m m2 (writes u x2).
Proof.
  intros bld be t u m m1 m2 x1 x2 Hw Tt Tu Hq E1 E2 Hs.
  destruct (C56_frame _ _ _ _ _ _ Hw Tt E1) as ((R1 & F1) & _).
  assert (Hw1 : wf_mem m1 = true) by (rewrite <- Hw; now apply wf_mem_regions).
  destruct (C56_success_writes _ _ _ _ _ _ Hw1 Tu E2 Hs) as (R2 & B2). split; [congruence|]. intros y. rewrite B2.
  destruct (Byte.byte_eq_dec (gm_byte m1 y) (gm_byte m y)) as [E|E]; [now apply overlay_at|].
  destruct (Byte.byte_eq_dec (overlay (gm_byte m1) (writes u x2) y) (overlay (gm_byte m) (writes u x2) y)) as [D|D]; [exact D|exfalso].
  apply E. apply F1. intros Hy. apply D. apply overlay_covered. exact (touched_is_written _ _ _ _ _ _ _ Hw1 Tu E2 Hs Hq y Hy).
Qed.

Theorem C60_repeat : forall bld be t m m1 m2 x1 x2,
  wf_mem m = true -> task_typed t -> same_request t t ->
  perform bld be t m = (m1, x1) -> success x1 -> perform bld be t m1 = (m2, x2) ->
  x2 = x1 /\ regions m2 = regions m1 /\ forall a, gm_byte m2 a = gm_byte m1 a.
Proof.
  intros bld be t m m1 m2 x1 x2 Hw Tt Hq E1 Hs E2.
  pose proof (C56_success_writes _ _ _ _ _ _ Hw Tt E1 Hs) as (R1 & B1).
  destruct (C57_contents_irrelevant bld be t m m1 m1 m2 x1 x2 (eq_sym R1) E1 E2) as (Hx & _). subst x2. split; [reflexivity|].
  destruct (C60_retry _ _ _ _ _ _ _ _ _ Hw Tt Tt Hq E1 E2 Hs) as (R2 & B2).
  split; [congruence|]. intros a. now rewrite B1, B2.
Qed.

(** ** A concrete preparation sequence meeting the hypotheses of C56-C60: an ELF kernel, a
    command line, a device tree, a header page and a PVH boot on the same memory. *)
Definition demo_hdr : boot_info := mkBoot [x01; x02; x03] 0xa000 None None None None.
Definition demo_pvh : boot_info := mkBoot [x04; x05] 0xb000 (Some [x06]) (Some 0xb100) (Some [x07]) (Some 0xb200).
Definition demo_tasks : list task :=
  [ LoadElf None None (plain_reader demo_elf);
    LoadCmdline 0x8000 (mkCmdline (txt "a=1") (txt "b") 20);
    LoadDtb 0x9000 (slow_reader [xd0; x0d; xfe; xed]);
    WriteLinux demo_hdr;
    WritePvh demo_pvh ].

Example demo_tasks_typed : wf_mem demo_mem = true /\ Forall task_typed demo_tasks.
Proof.
  split; [reflexivity|]. repeat constructor; cbn [task_typed].
  - apply plain_wf. reflexivity.
  - apply slow_wf. reflexivity.
Qed.
Example demo_tasks_succeed : exists m' xs,
  perform_all true TryAccess demo_tasks demo_mem = (m', xs) /\ Forall success xs /\ length xs = 5%nat /\
  peek m' 0x1000000 8 = [x11; x12; x13; x14; x21; x22; x23; x24] /\
  peek m' 0x8000 10 = utf8 (txt "a=1 -- b") ++ [x00; xff] /\
  peek m' 0x9000 5 = [xd0; x0d; xfe; xed; xff] /\ peek m' 0xa000 4 = [x01; x02; x03; xff] /\
  peek m' 0xb200 2 = [x07; xff].
Proof.
  eexists _, _. split; [vm_compute; reflexivity|]. split; [|repeat split; vm_compute; reflexivity].
  unfold success. repeat (apply Forall_cons; [eauto|]). apply Forall_nil.
Qed.
(** The address areas of the five calls, computed. *)
Lemma demo_areas : map (fun p => (ph_paddr p, ph_filesz p)) (filter is_load (phdrs_of demo_elf)) = [(0x1000000, 8); (0x1000004, 4)].
Proof. vm_compute. reflexivity. Qed.
Lemma demo_elf_area x : touches (LoadElf None None (plain_reader demo_elf)) x -> 0x1000000 <= x < 0x1000008.
Proof.
  intros (p & Hp & Hl & Hr). change (rd_data (plain_reader demo_elf)) with demo_elf in Hp.
  assert (Hi : In (ph_paddr p, ph_filesz p) [(0x1000000, 8); (0x1000004, 4)]).
  { rewrite <- demo_areas. apply (in_map (fun p => (ph_paddr p, ph_filesz p))). apply filter_In. split; assumption. }
  unfold in_range, base_of in Hr.
  destruct Hi as [E|[E|[]]]; inversion E as [[E1 E2]]; rewrite <- E1, <- E2 in Hr; lia.
Qed.
Lemma demo_other_areas :
  (forall x, touches (LoadCmdline 0x8000 (mkCmdline (txt "a=1") (txt "b") 20)) x -> 0x8000 <= x < 0x8009) /\
  (forall x, touches (LoadDtb 0x9000 (slow_reader [xd0; x0d; xfe; xed])) x -> 0x9000 <= x < 0x9004) /\
  (forall x, touches (WriteLinux demo_hdr) x -> 0xa000 <= x < 0xa003) /\
  (forall x, touches (WritePvh demo_pvh) x -> 0xb000 <= x < 0xb201).
Proof.
  split; [|split; [|split]]; intros x H.
  - cbn [touches] in H. vm_compute as_cstring in H. unfold in_range, lenN in H. cbn in H. lia.
  - unfold touches, in_range, lenN in H. cbn in H. lia.
  - unfold touches, in_range, lenN in H. cbn in H. lia.
  - destruct H as (s & Hs & Hr). unfold in_range, lenN in Hr. cbn in Hs.
    destruct Hs as [<-|[<-|[<-|[]]]]; cbn in Hr; lia.
Qed.
Example demo_tasks_separate : all_separate demo_tasks.
Proof.
  pose proof demo_elf_area as A. destruct demo_other_areas as (B & C & D & E).
  unfold all_separate, demo_tasks.
  repeat (apply FOP_cons; [repeat (apply Forall_cons; [intros x Hx Hy|]); try apply Forall_nil|]); try apply FOP_nil.
  all: repeat match goal with
       | H : touches (LoadElf _ _ _) _ |- _ => apply A in H
       | H : touches (LoadCmdline _ _) _ |- _ => apply B in H
       | H : touches (LoadDtb _ _) _ |- _ => apply C in H
       | H : touches (WriteLinux _) _ |- _ => apply D in H
       | H : touches (WritePvh _) _ |- _ => apply E in H
       end; lia.
Qed.
(** C60: a source failing at its 13th operation leaves a partly loaded kernel behind; the
    retry with a working source succeeds. *)
(** The hypotheses of C56-C59 together: all five calls succeed, in both orders, and what the first one placed is not touched later. *)
Example C56_C59_applies : wf_mem demo_mem = true /\ Forall task_typed demo_tasks /\ all_separate demo_tasks /\
  Permutation demo_tasks (rev demo_tasks) /\
  Forall success (snd (perform_all true TryAccess demo_tasks demo_mem)) /\
  Forall success (snd (perform_all true TryAccess (rev demo_tasks) demo_mem)) /\
  (forall u y, In u (tl demo_tasks) -> touches u y -> ~ in_range 0x1000000 8 y).
Proof.
  split; [reflexivity|]. split; [apply demo_tasks_typed|]. split; [exact demo_tasks_separate|]. split; [apply Permutation_rev|].
  split; [vm_compute; unfold success; repeat (apply Forall_cons; [eauto|]); apply Forall_nil|].
  split; [vm_compute; unfold success; repeat (apply Forall_cons; [eauto|]); apply Forall_nil|].
  destruct demo_other_areas as (B & C & D & E). intros u y Hu Ht [R1 R2]. cbn [tl demo_tasks] in Hu.
  destruct Hu as [<-|[<-|[<-|[<-|[]]]]]; [apply B in Ht|apply C in Ht|apply D in Ht|apply E in Ht]; lia.
Qed.
(** C57: two memories with different contents. *)
Example C57_applies : regions demo_mem = regions (mkMem (regions demo_mem) (fun a => if N.even a then x00 else x01)) /\
  gm_byte demo_mem 0 <> gm_byte (mkMem (regions demo_mem) (fun a => if N.even a then x00 else x01)) 0.
Proof. split; [reflexivity|vm_compute; discriminate]. Qed.
Example C60_applies :
  let broken := mkReader demo_elf 0 (2 ^ 63 - 1) (fun _ => 2 ^ 63) (fun _ i => Nat.eqb i 12) 0 in
  same_request (LoadElf None None broken) (LoadElf None None (plain_reader demo_elf)) /\
  task_typed (LoadElf None None broken) /\
  exists m1 e m2 res,
    perform true TryAccess (LoadElf None None broken) demo_mem = (m1, Loaded (Err e)) /\
    peek m1 0x1000000 8 <> peek demo_mem 0x1000000 8 /\
    perform true TryAccess (LoadElf None None (plain_reader demo_elf)) m1 = (m2, Loaded (Ok res)).
Proof.
  split; [split; reflexivity|]. split.
  - exact (plain_wf demo_elf eq_refl).
  - eexists _, _, _, _. split; [vm_compute; reflexivity|]. split; [vm_compute; discriminate|vm_compute; reflexivity].
Qed.
