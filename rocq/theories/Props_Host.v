(** * Props_Host: properties C81 to C85.

    The x86 parts of the crate on 32-bit hosts, compared with the 64-bit hosts all other properties speak about. *)
From Verif Require Import Base Base_proofs Io Mem SpecMem Mem_proofs Layout Loader Elf BzImage SpecFile SpecElf SpecBz File_proofs
  Elf_proofs Elf_proofs2 Bz_proofs Text Cmdline SpecCmdline Text_proofs Cmdline_proofs Cmdline_proofs2 SpecHistory Props_History
  BootParams SpecBoot Boot_proofs Props_Boot SpecParams Props_Params Demo_elf Props_Bz Host SpecHost Host_proofs Host_proofs2.
Local Open Scope N_scope.
Local Open Scope list_scope.

Lemma w32 : pointer_width (2 ^ 32).
Proof. now left. Qed.
Lemma w64 : pointer_width (2 ^ 64).
Proof. now right. Qed.

(** ** C81: loading an ELF image *)
(** When the numbers fit, a load has the same result, the same effect on memory and on the source; only an image whose notes lead
    beyond the host's [usize] can be told apart, and is refused. *)
Theorem C81_elf_same : forall usz bld be off highmem r m,
  pointer_width usz -> wf_reader r -> wf_mem m = true -> elf_fits usz (rd_data r) ->
  host_elf_load usz bld be off highmem r m = elf_load bld be off highmem r m \/
  (off = None /\ notes_too_far usz (rd_data r) /\
   exists r' m', host_elf_load usz bld be off highmem r m = (r', m', Err (LElf ElfOverflow))).
Proof.
  intros usz bld be off highmem r m Hu Hr Hm Hf.
  destruct (host_elf_load_agree usz Hu bld be off highmem r m Hr Hm Hf) as [E|((H1 & H2) & r' & m' & E & _)]; [now left|right; eauto].
Qed.

(** No difference at all when an offset is given (notes are then not read), ... *)
Theorem C81_elf_same_relocated : forall usz bld be k highmem r m,
  pointer_width usz -> wf_reader r -> wf_mem m = true -> elf_fits usz (rd_data r) ->
  host_elf_load usz bld be (Some k) highmem r m = elf_load bld be (Some k) highmem r m.
Proof.
  intros usz bld be k highmem r m Hu Hr Hm Hf.
  destruct (C81_elf_same usz bld be (Some k) highmem r m Hu Hr Hm Hf) as [E|(H & _)]; [exact E|discriminate H].
Qed.

(** ... or when the notes stay inside their segments. *)
Theorem C81_elf_same_tidy : forall usz bld be off highmem r m,
  pointer_width usz -> wf_reader r -> wf_mem m = true -> elf_fits usz (rd_data r) ->
  (forall p x, In p (phdrs_of (rd_data r)) -> is_note p = true ->
     note_reach (rd_data r) (ph_offset p) (ph_filesz p) x -> x <= ph_filesz p) ->
  host_elf_load usz bld be off highmem r m = elf_load bld be off highmem r m.
Proof.
  intros usz bld be off highmem r m Hu Hr Hm Hf Ht.
  destruct (C81_elf_same usz bld be off highmem r m Hu Hr Hm Hf) as [E|(_ & (p & x & H1 & H2 & H3 & H4) & _)]; [exact E|exfalso].
  specialize (Ht p x H1 H2 H3). destruct Hf as [_ Hf]. rewrite Forall_forall in Hf. specialize (Hf p H1). cbn beta in Hf. lia.
Qed.

(** On a 64-bit host the parametrised loader is the one of all the other properties. *)
Lemma reach_bound f start fsz x : lenN f < 2 ^ 63 -> note_reach f start fsz x -> x < 2 ^ 64.
Proof.
  intros Hl H. destruct H as [|rs H1 H2 H3]; [reflexivity|].
  pose proof (u32at_lt f (start + rs)) as Hn1. pose proof (u32at_lt f (start + rs + 4)) as Hn2.
  pose proof (Align_proofs.pad4_spec (u32at f (start + rs))) as (_ & Hq1 & _).
  pose proof (Align_proofs.pad4_spec (u32at f (start + rs + 4))) as (_ & Hq2 & _).
  change (2 ^ 32) with 4294967296 in *. change (2 ^ 63) with 9223372036854775808 in *. change (2 ^ 64) with 18446744073709551616. lia.
Qed.
Theorem C81_elf_64 : forall bld be off highmem r m,
  wf_reader r -> wf_mem m = true ->
  host_elf_load (2 ^ 64) bld be off highmem r m = elf_load bld be off highmem r m.
Proof.
  intros bld be off highmem r m Hr Hm.
  assert (Hf : elf_fits (2 ^ 64) (rd_data r)).
  { split; [apply u64at_lt|]. apply Forall_forall. intros p Hp. apply in_map_iff in Hp as (i & <- & _). apply u64at_lt. }
  destruct (C81_elf_same (2 ^ 64) bld be off highmem r m w64 Hr Hm Hf) as [E|(_ & (p & x & _ & _ & H3 & H4) & _)]; [exact E|exfalso].
  apply reach_bound in H3; [lia|apply Hr].
Qed.

(** Whatever the image: a load never aborts, and changes memory only where segments are to go. *)
Theorem C81_elf_safe : forall usz bld be off highmem r m r' m' o,
  pointer_width usz -> wf_reader r -> wf_mem m = true -> host_elf_load usz bld be off highmem r m = (r', m', o) ->
  same_outside m m' (fun x => exists p, In p (phdrs_of (rd_data r)) /\ seg_dest off p x) /\ forall p, o <> Panic p.
Proof.
  intros usz bld be off highmem r m r' m' o Hu Hr Hm H. destruct (host_elf_load_sound usz Hu _ _ _ _ _ _ _ _ _ Hr Hm H) as (_ & H1 & H2). auto.
Qed.

(** An ELF header with one program header, of the given type, offset, address and sizes. *)
Definition one_segment (type offset paddr filesz memsz : N) : bytes :=
  ehdr_bytes 1 0x1000 64 56 1 ++ phdr_bytes type offset paddr filesz memsz.
Definition some_mem : gmem := mkMem [mkRegion 0 0x10000] (fun _ => x00).

(** Without [elf_fits] the claim is false: an image that claims 4 GiB for a segment it does not hold is refused by a 64-bit host,
    and reported as loaded, with nothing copied, by a 32-bit one. *)
Theorem C81_elf_unfit_refuted :
  let f := one_segment 1 0 0x1000 (2 ^ 32) (2 ^ 32) in
  wf_reader (plain_reader f) /\ wf_mem some_mem = true /\
  snd (elf_load true TryAccess None None (plain_reader f) some_mem) = Err (LElf ReadKernelImage) /\
  snd (host_elf_load (2 ^ 32) true TryAccess None None (plain_reader f) some_mem) =
    Ok (mkResult 0x1000 (0x1000 + 2 ^ 32) None PvhEntryIgnored) /\
  (forall x, gm_byte (snd (fst (host_elf_load (2 ^ 32) true TryAccess None None (plain_reader f) some_mem))) x = x00).
Proof.
  cbv zeta. split; [|split; [|split; [|split]]].
  - unfold wf_reader. vm_compute. repeat split; discriminate.
  - reflexivity.
  - vm_compute. reflexivity.
  - vm_compute. reflexivity.
  - intros x.
    assert (E : snd (fst (host_elf_load (2 ^ 32) true TryAccess None None (plain_reader (one_segment 1 0 0x1000 (2 ^ 32) (2 ^ 32))) some_mem)) = some_mem)
      by (vm_compute; reflexivity).
    rewrite E. reflexivity.
Qed.

(** An image whose one note claims a name and a descriptor of almost 4 GiB each: a 64-bit host sees no entry note, a 32-bit one
    refuses.  Its numbers fit. *)
Example C81_overflow_happens :
  let f := one_segment 4 120 0 16 0 ++ le_enc 4 (2 ^ 32 - 4) ++ le_enc 4 (2 ^ 32 - 4) ++ le_enc 4 1 in
  elf_fits (2 ^ 32) f /\
  snd (elf_load true TryAccess None None (plain_reader f) some_mem) = Ok (mkResult 0x1000 0 None PvhEntryNotPresent) /\
  snd (host_elf_load (2 ^ 32) true TryAccess None None (plain_reader f) some_mem) = Err (LElf ElfOverflow).
Proof.
  cbv zeta. split; [|split; vm_compute; reflexivity].
  split; [vm_compute; reflexivity|]. apply Forall_cons; [vm_compute; reflexivity|apply Forall_nil].
Qed.

Example C81_applies :
  elf_fits (2 ^ 32) demo_elf /\
  snd (host_elf_load (2 ^ 32) true TryAccess None None (plain_reader demo_elf) demo_mem) =
    Ok (mkResult 0x1000100 0x1000020 None (PvhEntryPresent 0x1000040)) /\
  forall p x, In p (phdrs_of demo_elf) -> is_note p = true ->
     note_reach demo_elf (ph_offset p) (ph_filesz p) x -> x <= ph_filesz p.
Proof.
  split; [|split].
  - split; [vm_compute; reflexivity|]. repeat (apply Forall_cons; [vm_compute; reflexivity|]). apply Forall_nil.
  - vm_compute. reflexivity.
  - intros p x Hp Hn. vm_compute in Hp.
    destruct Hp as [ <- | [ <- | [ <- | [ <- | [] ]]]]; try discriminate Hn. clear Hn. cbn [ph_offset ph_filesz].
    intros H.
    assert (G : x = 0 \/ x = 20 \/ x = 36 \/ x = 60).
    { induction H as [|rs H IH H1 H2]; [auto|].
      destruct IH as [ -> | [ -> | [ -> | -> ]]].
      - right. left. vm_compute. reflexivity.
      - right. right. left. vm_compute. reflexivity.
      - right. right. right. vm_compute. reflexivity.
      - exfalso. revert H1. vm_compute. discriminate. }
    destruct G as [ -> | [ -> | [ -> | -> ]]]; vm_compute; discriminate.
Qed.

(** ** C82: loading a bzImage *)
Theorem C82_bz_same : forall usz be off highmem r m,
  pointer_width usz -> lenN (rd_data r) < usz ->
  host_bz_load usz be off highmem r m = bz_load be off highmem r m.
Proof. intros usz be off highmem r m Hu. now apply host_bz_small. Qed.

(** Whatever the size of the image: no abort, and memory changes only in the part of the destination the image is long enough for. *)
Theorem C82_bz_safe : forall usz be off highmem r m r' m' o,
  pointer_width usz -> wf_reader r -> 0x1f1 <= rd_maxpos r -> wf_mem m = true ->
  host_bz_load usz be off highmem r m = (r', m', o) ->
  (exists a, same_outside m m' (in_range a (lenN (rd_data r)))) /\ forall p, o <> Panic p.
Proof.
  intros usz be off highmem r m r' m' o Hu Hr Hp Hm H.
  destruct (host_bz_load_spec usz Hu _ _ _ _ _ _ _ _ Hr Hp Hm H) as (_ & Hreg & Hpost).
  assert (Hnil : forall a n, m' = m -> same_outside m m' (in_range a n)) by (intros a n ->; apply same_outside_refl).
  assert (Hmod : lenN (rd_data r) mod usz <= lenN (rd_data r)).
  { apply N.mod_le. destruct Hu as [-> | ->]; discriminate. }
  destruct Hpost as [(_ & E & Ho)|(k & _ & [(_ & Ho & E)|[(_ & _ & Ho & E)|[(_ & _ & _ & Ho & E)|(_ & _ & _ & Hx)]]])].
  - split; [exists 0; apply Hnil; exact E|]. destruct Ho as [-> | [-> | ->]]; discriminate.
  - split; [exists 0; apply Hnil; exact E|]. subst o. discriminate.
  - split; [exists 0; apply Hnil; exact E|]. subst o. discriminate.
  - split; [exists 0; apply Hnil; exact E|]. subst o. discriminate.
  - cbv zeta in Hx. destruct Hx as [(_ & -> & E)|((Hs1 & Hs2) & Hx)].
    + split; [exists 0; apply Hnil; exact E|discriminate].
    + split.
      * exists (bz_load_addr (seen (rd_data r) k) off). split; [exact Hs1|]. intros x Hn. apply Hs2. intros [G1 G2]. apply Hn. split; [exact G1|lia].
      * destruct Hx as [(-> & _)|(_ & _ & [(_ & ->)|(_ & ->)])]; discriminate.
Qed.

(** A larger image is silently cut: with [usz] more bytes behind it (or any multiple), a bzImage is loaded exactly as without them. *)
Definition patient (r : reader) : Prop :=
  (forall k i, rd_fault r k i = false) /\ forall i, lenN (rd_data r) <= rd_chunk r i.

Lemma patient_quiet be r : patient r -> ~ io_trouble be r /\ ~ short_or_fault r /\ ~ short_reads r.
Proof.
  intros [H1 H2]. split; [|split].
  - intros [(i & E)|[(i & E)|(_ & i & E)]]; [rewrite H1 in E; discriminate|rewrite H1 in E; discriminate|specialize (H2 i); lia].
  - intros [(k & i & E)|(i & E)]; [rewrite H1 in E; discriminate|specialize (H2 i); lia].
  - intros (i & E). specialize (H2 i). lia.
Qed.
Lemma part_app_l f g o n : o + n <= lenN f -> part (f ++ g) o n = part f o n.
Proof. intros H. rewrite !part_slice. now apply slice_app_l. Qed.

Theorem C82_bz_large_cut : forall usz be off highmem f pad r r0 m r' m' o r0' m0' o0,
  pointer_width usz -> rd_data r0 = f -> rd_data r = f ++ pad -> 0x1f1 + 123 <= lenN f -> lenN f < usz -> lenN pad mod usz = 0 ->
  wf_reader r -> wf_reader r0 -> patient r -> patient r0 -> wf_mem m = true ->
  host_bz_load usz be off highmem r m = (r', m', o) ->
  bz_load be off highmem r0 m = (r0', m0', o0) ->
  o = o0 /\ regions m' = regions m0' /\
  ((forall e, o0 <> Err e) -> forall x, gm_byte m' x = gm_byte m0' x).
Proof.
  intros usz be off highmem f pad r r0 m r' m' o r0' m0' o0 Hu D0 D Hlf Hlu Hpad Hr Hr0 Hq Hq0 Hm H H0.
  assert (Hmp : 0x1f1 <= rd_maxpos r).
  { destruct Hr as (_ & Hx & _). rewrite D, lenN_app in Hx. lia. }
  assert (Hmp0 : 0x1f1 <= rd_maxpos r0).
  { destruct Hr0 as (_ & Hx & _). rewrite D0 in Hx. lia. }
  destruct (host_bz_load_spec usz Hu _ _ _ _ _ _ _ _ Hr Hmp Hm H) as (_ & Hreg & Hpost).
  destruct (bz_load_spec _ _ _ _ _ _ _ _ Hr0 Hmp0 Hm H0) as (_ & Hreg0 & Hpost0).
  destruct (patient_quiet be r Hq) as (Hq1 & Hq2 & Hq3). destruct (patient_quiet be r0 Hq0) as (Gq1 & Gq2 & Gq3).
  destruct Hpost as [(X & _)|(k & Hk & Hpost)]; [contradiction|]. destruct Hk as [->|X]; [|contradiction].
  destruct Hpost0 as [(X & _)|(k & Hk & Hpost0)]; [contradiction|]. destruct Hk as [->|X]; [|contradiction].
  cbv zeta in Hpost, Hpost0. rewrite D in Hpost. rewrite D0 in Hpost0.
  assert (Esz : lenN (f ++ pad) mod usz = lenN f).
  { assert (Hne : usz <> 0) by (destruct Hu as [-> | ->]; discriminate).
    rewrite lenN_app, <- N.add_mod_idemp_r, Hpad, N.add_0_r by exact Hne. now apply N.mod_small. }
  rewrite Esz in Hpost.
  assert (Eseen : seen (f ++ pad) 123 = seen f 123) by (unfold seen; apply part_app_l; lia).
  assert (Ehdr : header_got (f ++ pad) 123 = header_got f 123).
  { unfold header_got. rewrite part_app_l by (change (N.min 123 123) with 123; lia). reflexivity. }
  rewrite Eseen, Ehdr in Hpost. set (g := seen f 123) in *.
  split; [|split; [congruence|]].
  - destruct Hpost as [(A1 & A2 & A3)|[(A1 & A2 & A3 & A4)|[(A1 & A2 & A3 & A4 & A5)|(A1 & A2 & A3 & A4)]]];
      destruct Hpost0 as [(B1 & B2 & B3)|[(B1 & B2 & B3 & B4)|[(B1 & B2 & B3 & B4 & B5)|(B1 & B2 & B3 & B4)]]];
      try contradiction; try lia; try congruence.
    destruct A4 as [(X & _)|(_ & A4)]; [exfalso; apply Hq1; now left|]. destruct B4 as [(X & _)|(_ & B4)]; [exfalso; apply Gq1; now left|].
    destruct A4 as [(-> & [X|A4])|(A4 & A5 & A6)]; [exfalso; apply Hq1; now right| |];
      (destruct B4 as [(-> & [X|B4])|(B4 & B5 & B6)]; [exfalso; apply Gq1; now right| |]); try contradiction; [reflexivity|].
    destruct A6 as [(A6 & ->)|(A6 & ->)]; destruct B6 as [(B6 & ->)|(B6 & ->)]; try lia; reflexivity.
  - intros He x.
    destruct Hpost0 as [(_ & -> & _)|[(_ & _ & -> & _)|[(_ & _ & _ & -> & _)|(B1 & B2 & B3 & B4)]]]; try (now exfalso; eapply He).
    destruct B4 as [(_ & -> & _)|(_ & [(-> & _)|(B4 & (_ & B5) & B6)])]; try (now exfalso; eapply He).
    destruct Hpost as [(A1 & _)|[(_ & A2 & _)|[(_ & _ & A3 & _)|(A1 & A2 & A3 & A4)]]]; try contradiction; [lia|].
    destruct A4 as [(X & _)|(_ & [(-> & [X|A4])|(A4 & (_ & A5) & A6)])]; [exfalso; apply Hq1; now left|exfalso; apply Hq1; now right|contradiction|].
    rewrite A5, B5. rewrite part_app_l by lia. reflexivity.
Qed.

Example C82_applies :
  let r := plain_reader demo_bz in
  lenN (rd_data r) < 2 ^ 32 /\ 0x1f1 + 123 <= lenN demo_bz /\ patient r /\
  patient (plain_reader (demo_bz ++ zeros (2 ^ 32))) /\ wf_reader (plain_reader (demo_bz ++ zeros (2 ^ 32))) /\
  lenN (zeros (2 ^ 32)) mod 2 ^ 32 = 0 /\
  exists res, snd (host_bz_load (2 ^ 32) TryAccess None None r demo_mem) = Ok res /\ kernel_end res = 0x1000008.
Proof.
  cbv zeta. assert (El : lenN (demo_bz ++ zeros (2 ^ 32)) = 4294968840).
  { rewrite lenN_app, lenN_zeros. reflexivity. }
  split; [reflexivity|]. split; [vm_compute; discriminate|]. split; [split; [reflexivity|intros i; vm_compute; discriminate]|].
  split; [split; [reflexivity|intros i; cbn [rd_data rd_chunk plain_reader]; rewrite El; vm_compute; discriminate]|].
  split; [apply plain_wf; rewrite El; reflexivity|]. split; [rewrite lenN_zeros; reflexivity|].
  eexists. split; [vm_compute; reflexivity|reflexivity].
Qed.

(** ** C83: building a command line *)
Fixpoint host_results (usz : N) (bld : build) (c : cmdline) (os : list op) : list (outcome cerror unit) :=
  match os with
  | [] => []
  | o :: os' => snd (host_run_op usz bld c o) :: host_results usz bld (fst (host_run_op usz bld c o)) os'
  end.
Definition host_run_ops (usz : N) (bld : build) (c : cmdline) (os : list op) : cmdline :=
  fold_left (fun c o => fst (host_run_op usz bld c o)) os c.
Definition host_story (usz : N) (bld : build) (k : ctor) (os : list op) : option story :=
  match host_run_ctor usz k with
  | Err e => Some (NoBuilder e)
  | Ok c0 => Some (Built (host_results usz bld c0 os) (as_cstring (host_run_ops usz bld c0 os)))
  | Panic _ => None
  end.
Lemma host_history_same usz bld os : pointer_width usz -> forall c, Inv c -> capacity c < usz ->
  host_results usz bld c os = results bld c os /\ host_run_ops usz bld c os = run_ops bld c os.
Proof.
  intros Hu. induction os as [|o os IH]; intros c HI Hc; [split; reflexivity|].
  destruct (run_op_inv bld c o HI) as [HI' Hc']. destruct (IH (fst (run_op bld c o)) HI') as [IH1 IH2]; [lia|].
  unfold host_run_ops, run_ops in *. cbn [host_results results fold_left]. rewrite (host_run_op_same usz Hu) by assumption.
  rewrite IH1, IH2. split; reflexivity.
Qed.
(** The whole history of a builder is, on every host, the one the rules of SpecHistory prescribe. *)
Theorem C83_history : forall usz bld k os s,
  pointer_width usz -> host_ctor_typed usz k ->
  (history_says k os s <-> host_story usz bld k os = Some s).
Proof.
  intros usz bld k os s Hu Hk. rewrite (C79_history bld k os s (host_ctor_typed_64 usz Hu k Hk)).
  assert (E : host_story usz bld k os = crate_story bld k os); [|rewrite E; tauto].
  unfold host_story, crate_story. rewrite (host_run_ctor_same usz Hu k Hk).
  destruct (run_ctor k) as [c|e|p] eqn:Ek; [|reflexivity|reflexivity].
  destruct (ctor_inv k c (host_ctor_typed_64 usz Hu k Hk) Ek) as [HI Hc].
  assert (Hcap : capacity c < usz). { rewrite Hc. destruct k; cbn in *; tauto. }
  destruct (host_history_same usz bld os Hu c HI Hcap) as [-> ->]. reflexivity.
Qed.

Example C83_applies : host_ctor_typed (2 ^ 32) (Parse (txt "console=ttyS0 -- quiet") 64) /\
  exists rs, host_story (2 ^ 32) false (Parse (txt "console=ttyS0 -- quiet") 64)
    [OpInsert (txt "a") (txt "1"); OpInsert (txt "b c") (txt "1"); OpInit (txt "x")] =
  Some (Built rs (Ok (utf8 (txt "console=ttyS0 a=1 -- quiet x")))) /\ rs = [Ok tt; Err HasSpace; Ok tt].
Proof. split; [split; vm_compute; reflexivity|]. eexists. split; [vm_compute; reflexivity|reflexivity]. Qed.

(** ** C84: building boot parameters *)
Definition host_call (usz : N) (bld : build) (p : boot_info) (c : bcall) : boot_info * outcome berror N :=
  match c with
  | BSet w es a => (set_list w p es a, Ok a)
  | BAdd w e addr => host_add usz w bld p e addr
  end.
Fixpoint host_params (usz : N) (bld : build) (p : boot_info) (cs : list bcall) : list reply * option boot_info :=
  match cs with
  | [] => ([], Some p)
  | c :: cs' =>
      match host_call usz bld p c with
      | (_, Panic _) => ([Aborted], None)
      | (p', o) => let (rs, fin) := host_params usz bld p' cs' in (reply_of o :: rs, fin)
      end
  end.

Lemma host_add_det usz v s e addr r1 v1 s1 r2 v2 s2 :
  host_add_says usz v s e addr r1 v1 s1 -> host_add_says usz v s e addr r2 v2 s2 -> r1 = r2 /\ v1 = v2 /\ s1 = s2.
Proof.
  intros H H'. destruct H as [E A|s0 E L|s0 a E L A B|s0 w E L A B C|s0 a w E L A B C D|s0 E L A B|s0 a E L A B C];
    destruct H' as [E' A'|s0' E' L'|s0' a' E' L' A' B'|s0' w' E' L' A' B' C'|s0' a' w' E' L' A' B' C' D'|s0' E' L' A' B'|s0' a' E' L' A' B' C'];
    try (subst s addr; cbn in *; discriminate);
    try (assert (s0 = s0') by congruence; subst s0'); try (assert (a = a') by congruence; subst a'); try congruence; try lia; auto.
  - subst w w'. auto.
  - rewrite (placed_det _ _ _ _ _ D D'). auto.
Qed.
Lemma host_bcall_det usz p c r1 p1 r2 p2 : host_bcall_says usz p c r1 p1 -> host_bcall_says usz p c r2 p2 -> r1 = r2 /\ p1 = p2.
Proof.
  intros H H'. inversion H; subst; inversion H'; subst; auto;
    match goal with X : host_add_says _ _ _ _ _ r1 _ _, Y : host_add_says _ _ _ _ _ r2 _ _ |- _ =>
      destruct (host_add_det _ _ _ _ _ _ _ _ _ _ _ X Y) as (<- & <- & <-) end; auto.
Qed.
Lemma host_bcall_obeys usz bld p c p' o : pointer_width usz -> host_sized usz p -> host_call_sized usz c -> host_call usz bld p c = (p', o) ->
  exists p2, host_bcall_says usz p c (reply_of o) p2 /\ ((forall q, o <> Panic q) -> p' = p2).
Proof.
  intros Hu Hs Hc H. destruct c as [w es a|w e addr]; cbn [host_call] in H.
  - injection H as <- <-. cbn [reply_of]. destruct w; eexists; (split; [constructor|intros _; reflexivity]).
  - destruct Hc as [He Ha]. destruct (Hs w) as [Hv Hst]. destruct w; cbn [host_add list_of start_of] in H, Hv, Hst.
    + unfold host_add_section in H. destruct (host_add_to_list usz bld e addr (or_empty (sections p)) (sections_start p)) as [[v s] o1] eqn:E.
      destruct (host_add_cases usz Hu _ _ _ _ _ _ _ _ Hv He Hst Ha E) as (v2 & s2 & A & -> & B). injection H as <- ->.
      eexists. split; [apply hsays_add_section; exact A|]. intros X. now rewrite (B X).
    + unfold host_add_module in H. destruct (host_add_to_list usz bld e addr (or_empty (modules p)) (modules_start p)) as [[v s] o1] eqn:E.
      destruct (host_add_cases usz Hu _ _ _ _ _ _ _ _ Hv He Hst Ha E) as (v2 & s2 & A & -> & B). injection H as <- ->.
      eexists. split; [apply hsays_add_module; exact A|]. intros X. now rewrite (B X).
Qed.
Lemma host_add_keeps_size usz v st e addr r v' s' : pointer_width usz ->
  lenN v < usz / 2 -> (forall s, st = Some s -> s < 2 ^ 64) -> (forall a, addr = Some a -> a < 2 ^ 64) ->
  host_add_says usz v st e addr r v' s' -> lenN v' < usz / 2 /\ (forall s, s' = Some s -> s < 2 ^ 64).
Proof.
  intros Hu Hv Hst Ha H.
  assert (G : forall s, start_with st addr = Some s -> forall x, Some s = Some x -> x < 2 ^ 64).
  { intros s E x Ex. injection Ex as <-. destruct st as [t|]; cbn in E; [injection E as ->; now apply Hst|now apply Ha]. }
  destruct H as [E A|s0 E L|s0 a E L A B|s0 w E L A B C|s0 a w E L A B C D|s0 E L A B|s0 a E L A B C]; (split; [|try (now apply G); try discriminate]); try assumption.
  - subst w. rewrite lenN_app. exact B.
  - destruct D as [-> _]. lia.
Qed.
Lemma host_sized_step usz p c r p' : pointer_width usz -> host_sized usz p -> host_call_sized usz c -> host_bcall_says usz p c r p' -> host_sized usz p'.
Proof.
  intros Hu Hs Hc H. inversion H as [es a|es a|e addr r0 v s A|e addr r0 v s A]; subst; intros w; destruct w; cbn [list_of start_of sections sections_start modules modules_start].
  - cbn [contents]. destruct Hc as [C1 C2]. split; [exact C1|]. intros x Ex. injection Ex as <-. exact C2.
  - exact (Hs Modules).
  - exact (Hs Sections).
  - cbn [contents]. destruct Hc as [C1 C2]. split; [exact C1|]. intros x Ex. injection Ex as <-. exact C2.
  - destruct Hc as [C1 C2]. destruct (Hs Sections) as [S1 S2]. exact (host_add_keeps_size usz _ _ _ _ _ _ _ Hu S1 S2 C2 A).
  - exact (Hs Modules).
  - exact (Hs Sections).
  - destruct Hc as [C1 C2]. destruct (Hs Modules) as [S1 S2]. exact (host_add_keeps_size usz _ _ _ _ _ _ _ Hu S1 S2 C2 A).
Qed.

(** Every history, on every host, is the one [host_bcalls_say] prescribes. *)
Theorem C84_boot_parameters : forall usz bld p cs rs fin,
  pointer_width usz -> host_sized usz p -> Forall (host_call_sized usz) cs ->
  (host_bcalls_say usz p cs rs fin <-> host_params usz bld p cs = (rs, fin)).
Proof.
  intros usz bld p cs rs fin Hu. revert p rs fin. induction cs as [|c cs IH]; intros p rs fin Hs Hc.
  - cbn [host_params]. split; [intros H; inversion H; subst; reflexivity|intros H; injection H as <- <-; constructor].
  - inversion Hc as [|? ? Hc1 Hc2]; subst. cbn [host_params]. destruct (host_call usz bld p c) as [p' o] eqn:E.
    destruct (host_bcall_obeys usz bld p c p' o Hu Hs Hc1 E) as (p2 & B & Bp).
    assert (Hcase : (exists q, o = Panic q) \/ (forall q, o <> Panic q)) by (destruct o as [| |q]; [right; discriminate|right; discriminate|left; eauto]).
    destruct Hcase as [(q & ->)|Hn].
    + cbn [reply_of] in B. split.
      * intros H. inversion H as [|c0 cs0 p3 X|c0 cs0 r rs0 p3 fin0 X N R]; subst; [reflexivity|].
        destruct (host_bcall_det _ _ _ _ _ _ _ B X) as (<- & _). congruence.
      * intros H. injection H as <- <-. now apply hbsay_aborted with p2.
    + specialize (Bp Hn). subst p2. pose proof (host_sized_step _ _ _ _ _ Hu Hs Hc1 B) as Hs'.
      assert (Er : match o with Panic _ => ([Aborted], None) | _ => let (rs, fin) := host_params usz bld p' cs in (reply_of o :: rs, fin) end =
                   (let (rs, fin) := host_params usz bld p' cs in (reply_of o :: rs, fin))).
      { destruct o as [| |q]; [reflexivity|reflexivity|now destruct (Hn q)]. }
      rewrite Er. clear Er. destruct (host_params usz bld p' cs) as [rs1 fin1] eqn:Ep.
      assert (Hna : reply_of o <> Aborted) by (destruct o as [| |q]; [discriminate|discriminate|now destruct (Hn q)]).
      split.
      * intros H. inversion H as [|c0 cs0 p3 X|c0 cs0 r rs0 p3 fin0 X N R]; subst.
        -- destruct (host_bcall_det _ _ _ _ _ _ _ B X) as (F & _). contradiction.
        -- destruct (host_bcall_det _ _ _ _ _ _ _ B X) as (<- & <-). apply IH in R; [|exact Hs'|exact Hc2]. congruence.
      * intros H. injection H as <- <-. apply hbsay_call with p'; [exact B|exact Hna|]. now apply IH.
Qed.

(** Where the lists stay shorter than half the host's address space, that is the one the ordinary rules prescribe. *)
Lemma add_within usz v st e addr r v' s' : pointer_width usz ->
  add_says v st e addr r v' s' -> r <> Aborted -> lenN v' < usz / 2 -> host_add_says usz v st e addr r v' s'.
Proof.
  intros Hu H Hr Hl. assert (Hdiv : usz / 2 <= usz) by (destruct Hu as [-> | ->]; vm_compute; discriminate).
  destruct H as [E A|s0 E L|s0 a E L A B|s0 w E L A B C|s0 a w E L A B C D|s0 E L A B|s0 a E L A B C]; try congruence.
  - now apply hadd_nowhere.
  - now apply hadd_overflow.
  - now apply hadd_before with a.
  - apply hadd_end; try assumption. subst w. now rewrite lenN_app in Hl.
  - pose proof D as [Dl _]. assert (Em : (a - s0) mod usz = a - s0) by (apply N.mod_small; lia).
    apply hadd_at; rewrite ?Em; try assumption. lia.
Qed.
Theorem C84_same_within : forall usz p cs rs fin,
  pointer_width usz -> bcalls_within usz p cs rs fin -> host_bcalls_say usz p cs rs fin /\ bcalls_say p cs rs fin.
Proof.
  intros usz p cs rs fin Hu H. induction H as [p|p c cs r rs p' fin B Hr Hl _ [IH1 IH2]]; [split; constructor|].
  split; [|now apply bsay_call with p']. apply hbsay_call with p'; [|exact Hr|exact IH1].
  inversion B as [es a|es a|e addr r0 v s A|e addr r0 v s A]; subst; try constructor.
  - apply add_within; [exact Hu|exact A|exact Hr|]. exact (Hl Sections).
  - apply add_within; [exact Hu|exact A|exact Hr|]. exact (Hl Modules).
Qed.

(** Beyond that the ordinary rules are broken: on a 32-bit host an element added 4 GiB after the start of its list is reported
    as placed there, and overwrites the first element. *)
Theorem C84_far_element_refuted :
  host_params (2 ^ 32) true (bp_new [x01] 0x1000) [BAdd Modules [xaa; xbb] (Some 0x2000); BAdd Modules [xcc] (Some (0x2000 + 2 ^ 32))] =
  ([Added 0x2000; Added (0x2000 + 2 ^ 32)], Some (mkBoot [x01] 0x1000 None None (Some [xcc; xbb]) (Some 0x2000))).
Proof. vm_compute. reflexivity. Qed.

Example C84_applies : bcalls_within (2 ^ 32) (bp_new [x01] 0x1000)
  [BAdd Modules [xaa] (Some 0x2000); BAdd Modules [xbb] None] [Added 0x2000; Added 0x2001]
  (Some (mkBoot [x01] 0x1000 None None (Some [xaa; xbb]) (Some 0x2000))).
Proof.
  apply within_call with (mkBoot [x01] 0x1000 None None (Some [xaa]) (Some 0x2000)).
  - apply says_add_module. apply add_at; try reflexivity; try (vm_compute; discriminate).
    split; [reflexivity|]. intros j Hj. change (j < 1) in Hj. replace j with 0 by lia. reflexivity.
  - discriminate.
  - intros []; vm_compute; reflexivity.
  - apply within_call with (mkBoot [x01] 0x1000 None None (Some [xaa; xbb]) (Some 0x2000)).
    + apply says_add_module. change (Added 0x2001) with (Added (0x2000 + lenN [xaa])). apply (add_end _ _ _ _ 0x2000); try reflexivity.
    + discriminate.
    + intros []; vm_compute; reflexivity.
    + constructor.
Qed.

(** ** C85: struct layouts *)
Fixpoint same_layout (t : ty) : bool :=
  (size_at 4 t =? size t) &&
  match t with
  | Arr _ t' => same_layout t'
  | Struct p fs =>
      (fix go (o : N) (fs : list (string * ty)) : bool :=
         match fs with
         | [] => true
         | (_, t') :: r => (place_at 4 p o t' =? place p o t') && same_layout t' && go (place p o t' + size t') r
         end) 0 fs
  | _ => true
  end.
Definition fields_same (p : bool) := fix go (o : N) (fs : list (string * ty)) : bool :=
         match fs with
         | [] => true
         | (_, t') :: r => (place_at 4 p o t' =? place p o t') && same_layout t' && go (place p o t' + size t') r
         end.
Lemma same_layout_size t : same_layout t = true -> size_at 4 t = size t.
Proof. intros H. destruct t; cbn [same_layout] in H; apply andb_true_iff in H as [H _]; now apply N.eqb_eq in H. Qed.
Lemma same_layout_struct p fs : same_layout (Struct p fs) = true -> fields_same p 0 fs = true.
Proof. intros H. cbn [same_layout] in H. now apply andb_true_iff in H as [_ H]. Qed.
Lemma find_field_same p name fs : forall o, fields_same p o fs = true ->
  find_field_at 4 p o fs name = find_field p o fs name /\
  (forall o' t', find_field p o fs name = Some (o', t') -> same_layout t' = true).
Proof.
  induction fs as [|[n t] fs IH]; intros o H; cbn [fields_same find_field_at find_field] in *; [split; [reflexivity|discriminate]|].
  apply andb_true_iff in H as [H H3]. apply andb_true_iff in H as [H1 H2]. apply N.eqb_eq in H1. rewrite H1, (same_layout_size t H2).
  destruct (String.eqb n name); [|now apply IH]. split; [reflexivity|]. intros o' t' E. now injection E as <- <-.
Qed.
Lemma locate_same path : forall t, same_layout t = true ->
  locate_at 4 t path = locate t path /\ (forall o t', locate t path = Some (o, t') -> size_at 4 t' = size t').
Proof.
  induction path as [|[name|i] path IH]; intros t H; cbn [locate_at locate].
  - split; [reflexivity|]. intros o t' E. injection E as <- <-. now apply same_layout_size.
  - destruct t as [| | | |n t|p fs]; try (split; [reflexivity|discriminate]).
    destruct (find_field_same p name fs 0 (same_layout_struct _ _ H)) as [-> Hs].
    destruct (find_field p 0 fs name) as [[o t']|]; [|split; [reflexivity|discriminate]].
    destruct (IH t' (Hs o t' eq_refl)) as [-> Hi]. split; [reflexivity|].
    intros o1 t1 E. destruct (locate t' path) as [[o2 t2]|]; [|discriminate]. injection E as <- <-. now apply (Hi o2).
  - destruct t as [| | | |n t|p fs]; try (split; [reflexivity|discriminate]).
    cbn [same_layout] in H. apply andb_true_iff in H as [_ H]. rewrite (same_layout_size t H).
    destruct (IH t H) as [-> Hi]. split; [reflexivity|].
    destruct (i <? n); [|discriminate]. intros o1 t1 E. destruct (locate t path) as [[o2 t2]|]; [|discriminate]. injection E as <- <-. now apply (Hi o2).
Qed.

(** Every struct of the x86 parts has, on 32-bit x86, where [u64] is aligned to 4 bytes, the size it has on x86_64, and every
    field and array element, however deeply nested, the same offset and size. *)
Definition x86_structs : list ty :=
  [ screen_info; apm_bios_info; ist_info; edid_info; boot_e820_entry; edd_device_params; edd_info; setup_header; sys_desc_table;
    olpc_ofw_header; efi_info; boot_params; hvm_start_info; hvm_modlist_entry; hvm_memmap_table_entry;
    Elf32_Ehdr; Elf32_Phdr; Elf32_Shdr; Elf32_Sym; Elf32_Rel; Elf32_Rela; Elf32_Dyn; Elf32_Nhdr; Elf32_Verdef; Elf32_Verdaux;
    Elf64_Ehdr; Elf64_Phdr; Elf64_Shdr; Elf64_Sym; Elf64_Rel; Elf64_Rela; Elf64_Dyn; Elf64_Nhdr; Elf64_Verdef; Elf64_Verdaux ].
Theorem C85_layouts : forall t, In t x86_structs ->
  size_at 4 t = size t /\
  forall path, locate_at 4 t path = locate t path /\
    forall o t', locate t path = Some (o, t') -> size_at 4 t' = size t'.
Proof.
  intros t Ht. assert (H : same_layout t = true).
  { assert (G : forallb same_layout x86_structs = true) by (vm_compute; reflexivity). rewrite forallb_forall in G. now apply G. }
  split; [now apply same_layout_size|]. intros path. now apply locate_same.
Qed.
(** With the alignment of x86_64 the parametrised layouts are those of all other properties, for any type at all. *)
Theorem C85_layouts_64 : forall t, size_at 8 t = size t /\ align_at 8 t = align t /\ forall path, locate_at 8 t path = locate t path.
Proof. intros t. split; [reflexivity|]. split; [reflexivity|]. intros path. reflexivity. Qed.
(** Not so for any struct: one with a [u32] before a [u64] would differ. *)
Example C85_not_all : size_at 4 (Struct false [("a"%string, U32); ("b"%string, U64)]) = 12 /\ size (Struct false [("a"%string, U32); ("b"%string, U64)]) = 16.
Proof. split; reflexivity. Qed.
Example C85_applies : In boot_params x86_structs /\
  locate_at 4 boot_params [Fld "hdr"; Fld "code32_start"] = Some (532, U32) /\ align_at 4 hvm_start_info = 4 /\ align hvm_start_info = 8.
Proof. split; [vm_compute; tauto|]. vm_compute. auto. Qed.
