(** * Props_Env: what the outcome of a call depends on (C61). *)
From Verif Require Import Base Io Mem SpecMem Mem_proofs SpecFile Text Cmdline Loader Elf SpecElf
  BzImage SpecBz Pe SpecPe BootParams Configurators Demo_elf SpecVmm Vmm_proofs Sim_proofs Props_Vmm.

(** ** C61: two calls with equal arguments, on sources of the same image (standing anywhere,
    returning any number of bytes per read) and on memories with the same bytes at the same
    addresses (split into regions in any way), report the same and leave the same bytes. *)
Theorem C61_environment_irrelevant : forall bld be t1 t2 m1 m2 m1' m2' x1 x2,
  wf_mem m1 = true -> wf_mem m2 = true -> same_guest m1 m2 ->
  same_call t1 t2 -> steady be t1 -> steady be t2 ->
  perform bld be t1 m1 = (m1', x1) -> perform bld be t2 m2 = (m2', x2) ->
  x1 = x2 /\ same_guest m1' m2'.
Proof. exact perform_alike. Qed.

Theorem C61_whole_sequences : forall bld be ts1 ts2 m1 m2 m1' m2' xs1 xs2,
  wf_mem m1 = true -> wf_mem m2 = true -> same_guest m1 m2 ->
  Forall2 same_call ts1 ts2 -> Forall (steady be) ts1 -> Forall (steady be) ts2 ->
  perform_all bld be ts1 m1 = (m1', xs1) -> perform_all bld be ts2 m2 = (m2', xs2) ->
  xs1 = xs2 /\ same_guest m1' m2'.
Proof.
  intros bld be ts1 ts2 m1 m2 m1' m2' xs1 xs2 W1 W2 G HF. revert m1 m2 m1' m2' xs1 xs2 W1 W2 G.
  induction HF as [|t1 t2 ts1 ts2 HC HF IH]; intros m1 m2 m1' m2' xs1 xs2 W1 W2 G S1 S2 E1 E2.
  - cbn in *. inversion E1; inversion E2; subst. auto.
  - cbn in E1, E2. inversion S1 as [|? ? S1a S1b]; subst. inversion S2 as [|? ? S2a S2b]; subst.
    destruct (perform bld be t1 m1) as [n1 y1] eqn:F1. destruct (perform bld be t2 m2) as [n2 y2] eqn:F2.
    destruct (perform_all bld be ts1 n1) as [k1 ys1] eqn:A1. destruct (perform_all bld be ts2 n2) as [k2 ys2] eqn:A2.
    inversion E1; inversion E2; subst.
    destruct (perform_alike _ _ _ _ _ _ _ _ _ _ W1 W2 G HC S1a S2a F1 F2) as (-> & G1).
    assert (V1 : wf_mem n1 = true).
    { destruct (perform_blind bld be t1 (regions m1)) as (y & s & H). destruct (H m1 eq_refl) as (n & Hn & ((R & _) & _)).
      rewrite F1 in Hn. inversion Hn; subst. rewrite <- W1. now apply wf_mem_regions. }
    assert (V2 : wf_mem n2 = true).
    { destruct (perform_blind bld be t2 (regions m2)) as (y & s & H). destruct (H m2 eq_refl) as (n & Hn & ((R & _) & _)).
      rewrite F2 in Hn. inversion Hn; subst. rewrite <- W2. now apply wf_mem_regions. }
    destruct (IH _ _ _ _ _ _ V1 V2 G1 S1b S2b A1 A2) as (-> & G2). auto.
Qed.

(** The ELF demo image behind a source at position 7 returning three bytes per read, on
    [demo_mem] cut into five regions listed in another order. *)
Definition split_mem : gmem :=
  mkMem [mkRegion 0x1000006 0xffa; mkRegion 0x8000 3; mkRegion 0 0x8000; mkRegion 0x8003 0x7ffd; mkRegion 0x1000000 6] (fun _ => xff).
Example C61_same_guest : wf_mem split_mem = true /\ same_guest demo_mem split_mem.
Proof.
  split; [reflexivity|]. split; [|intros; reflexivity]. intros a. unfold backed. split.
  - intros (r & [<-|[<-|[]]] & H1 & H2); cbn in H1, H2.
    + destruct (N.ltb_spec a 0x8000); [exists (mkRegion 0 0x8000); cbn; intuition lia|].
      destruct (N.ltb_spec a 0x8003); [exists (mkRegion 0x8000 3); cbn; intuition lia|].
      exists (mkRegion 0x8003 0x7ffd); cbn; intuition lia.
    + destruct (N.ltb_spec a 0x1000006); [exists (mkRegion 0x1000000 6); cbn; intuition lia|].
      exists (mkRegion 0x1000006 0xffa); cbn; intuition lia.
  - intros (r & [<-|[<-|[<-|[<-|[<-|[]]]]]] & H1 & H2); cbn in H1, H2;
      [exists (mkRegion 0x1000000 0x1000)|exists (mkRegion 0 0x10000)|exists (mkRegion 0 0x10000)
      |exists (mkRegion 0 0x10000)|exists (mkRegion 0x1000000 0x1000)]; cbn; intuition lia.
Qed.
Example C61_applies :
  let t1 := LoadElf None None (plain_reader demo_elf) in
  let t2 := LoadElf None None (mkReader demo_elf 7 (2 ^ 63 - 1) (fun _ => 3) (fun _ _ => false) 0) in
  same_call t1 t2 /\ steady TryAccess t1 /\ steady TryAccess t2 /\
  exists m1 m2 res, perform true TryAccess t1 demo_mem = (m1, Loaded (Ok res)) /\
    perform true TryAccess t2 split_mem = (m2, Loaded (Ok res)) /\
    peek m1 0x1000000 9 = [x11; x12; x13; x14; x21; x22; x23; x24; xff] /\ peek m2 0x1000000 9 = peek m1 0x1000000 9.
Proof.
  split; [split; [reflexivity|split; [reflexivity|split; reflexivity]]|].
  split; [apply plain_quiet; reflexivity|]. split; [intros [(i & E)|[(i & E)|(E & _)]]; discriminate|].
  eexists _, _, _. split; [vm_compute; reflexivity|]. split; [vm_compute; reflexivity|]. split; vm_compute; reflexivity.
Qed.
(** Cutting a read short does matter for the bzImage header (C38) and for sources read slice by
    slice; failing operations of course matter as well. *)
Example C61_short_reads_matter_for_slices :
  let t1 := LoadDtb 0x100 (plain_reader [x01; x02; x03; x04]) in
  let t2 := LoadDtb 0x100 (mkReader [x01; x02; x03; x04] 0 (2 ^ 63 - 1) (fun _ => 3) (fun _ _ => false) 0) in
  snd (perform true GetSlices t1 demo_mem) = Done (Ok tt) /\ snd (perform true GetSlices t2 demo_mem) <> Done (Ok tt).
Proof. vm_compute. split; [reflexivity|discriminate]. Qed.
