(** * Props_Place: using the results of a load (C69-C71).

    Vocabulary: SpecVmm.v ([task], [perform], [touches], [writes]). *)
From Verif Require Import Base Base_proofs Io Mem SpecMem Mem_proofs SpecFile File_proofs Text Cmdline SpecCmdline Loader Elf SpecElf
  BzImage SpecBz Bz_proofs Pe SpecPe Pe_proofs BootParams Configurators SpecBoot Elf_proofs2 Demo_elf
  Props_Loader Props_Elf Props_Bz Props_Pe Props_Config SpecVmm Vmm_proofs Sim_proofs Props_Vmm Props_Env Props_Boot_e2e.
Local Open Scope list_scope.

(** ** C69: everything from the reported end of the kernel on is free. *)
(** The image keeps its promises: no ELF segment has more bytes in the file than in memory, and the
    header of a bzImage that decides the load address is delivered in one read. *)
Definition honest (t : task) : Prop :=
  match t with
  | LoadElf _ _ im => forall p, In p (phdrs_of (rd_data im)) -> is_load p = true -> ph_filesz p <= ph_memsz p
  | LoadBz None _ im => ~ short_reads im
  | _ => True
  end.
Definition start_known (t : task) : Prop := match t with LoadBz _ _ _ | LoadPe _ _ _ _ => True | _ => False end.

Theorem C69_below_kernel_end : forall bld be t m m' res,
  wf_mem m = true -> task_typed t -> perform bld be t m = (m', Loaded (Ok res)) -> honest t ->
  (forall x, touches t x -> x < kernel_end res /\ (start_known t -> kernel_load res <= x)) /\
  same_outside m m' (fun x => x < kernel_end res /\ (start_known t -> kernel_load res <= x)).
Proof.
  intros bld be t m m' res Hw Ht H Hh.
  assert (Hin : forall x, touches t x -> x < kernel_end res /\ (start_known t -> kernel_load res <= x)).
  { destruct t; cbn [perform task_typed honest start_known touches] in *.
    - destruct (elf_load bld be off highmem image m) as [[r' m1] o] eqn:E. injection H as _ ->. intros x (p & Hp & Hx). split; [|intros []].
      assert (Hr : runs bld be off highmem image m m1 (Ok res)) by (split; [exact Ht|split; [exact Hw|eauto]]).
      destruct (C32_elf_kernel_end _ _ _ _ _ _ _ _ Hr Hh) as (_ & Hd). exact (Hd p x Hp Hx).
    - destruct (bz_load be off highmem image m) as [[r' m1] o] eqn:E. injection H as _ ->. destruct Ht as (T1 & T2 & T3).
      assert (Hr : bz_runs be off highmem image m m1 (Ok res)) by (split; [exact T1|split; [exact T2|split; [exact Hw|split; [exact T3|eauto]]]]).
      destruct (C35_bz_payload_placed _ _ _ _ _ _ _ Hr) as (Hl & _ & _ & He & _ & _ & Ho1 & Ho2).
      intros x (k & Hk & Hx). assert (Ha : bz_load_addr (seen (rd_data image) k) off = kernel_load res).
      { destruct off as [a|]; [symmetry; now apply Ho1|]. rewrite Ho2 by exact Hh. destruct Hk as [-> |Hk]; [|contradiction].
        unfold bz_load_addr. now rewrite seen_code32 by lia. }
      rewrite Ha in Hx. destruct Hx as [X1 X2]. rewrite He. change (bz_payload (rd_data image)) with (payload (rd_data image)). split; [exact X2|auto].
    - destruct (pe_load a be off highmem image m) as [[r' m1] o] eqn:E. injection H as _ ->.
      assert (Hr : pe_runs a be off highmem image m m1 (Ok res)) by (split; [exact Ht|split; [exact Hw|eauto]]).
      destruct (C39_pe_placement _ _ _ _ _ _ _ _ Hr) as (Hl & He & _). intros x Hx.
      fold (pe_base off) in Hl. fold (pe_load_addr a (rd_data image) off) in Hl. rewrite <- Hl in Hx. destruct Hx as [X1 X2]. rewrite He. auto.
    - destruct (load_dtb be addr image m) as [[r' m1] o]. discriminate.
    - destruct (load_cmdline bld be m addr c) as [m1 o]. discriminate.
    - destruct (linux_write_bootparams be p m) as [m1 o]. discriminate.
    - destruct (fdt_write_bootparams be p m) as [m1 o]. discriminate.
    - destruct (pvh_write_bootparams be p m) as [m1 o]. discriminate. }
  split; [exact Hin|]. destruct (C56_frame _ _ _ _ _ _ Hw Ht H) as [Hf _]. eapply same_outside_mono; [|exact Hf]. exact Hin.
Qed.

(** So whatever the VMM puts at or above [kernel_end] (an initrd, tables, ...), the kernel stays. *)
Theorem C69_place_after_kernel : forall bld be t m m1 res ts m2 xs pre a bs post,
  wf_mem m = true -> task_typed t -> perform bld be t m = (m1, Loaded (Ok res)) -> honest t ->
  Forall task_typed ts -> (forall u x, In u ts -> touches u x -> kernel_end res <= x) ->
  perform_all bld be ts m1 = (m2, xs) ->
  writes t (Loaded (Ok res)) = pre ++ (a, bs) :: post -> (forall s, In s post -> disjoint (a, bs) s) ->
  holds_at m2 a bs.
Proof.
  intros bld be t m m1 res ts m2 xs pre a bs post Hw Ht H Hh Hts Hafter Hall Hwr Hpost.
  assert (Hs : success (Loaded (Ok res))) by (left; eauto).
  apply (C58_pieces_survive bld be [] t ts m m2 (Loaded (Ok res) :: xs) (Loaded (Ok res)) pre a bs post); try assumption.
  - constructor; assumption.
  - cbn [app perform_all]. rewrite H, Hall. reflexivity.
  - reflexivity.
  - intros u y Hu Hy Hr. specialize (Hafter u y Hu Hy).
    destruct (C69_below_kernel_end _ _ _ _ _ _ Hw Ht H Hh) as (Hin & _).
    destruct (Hin y) as [Hlt _]; [|lia]. apply (C56_writes_inside _ _ _ _ _ _ Hw Ht H Hs (a, bs) y); [rewrite Hwr; apply in_elt|exact Hr].
Qed.

(** ** C70: trying formats one after the other on the same open file. *)
Inductive format := FElf | FBz | FPe (a : arch).
Definition load_as (bld : build) (be : backend) (k : format) (off highmem : option N) : L load_result :=
  match k with
  | FElf => elf_load bld be off highmem
  | FBz => bz_load be off highmem
  | FPe a => pe_load a be off highmem
  end.
Definition as_task (k : format) (off highmem : option N) (r : reader) : task :=
  match k with FElf => LoadElf off highmem r | FBz => LoadBz off highmem r | FPe a => LoadPe a off highmem r end.
(** Each attempt continues with the file and the memory as the previous one left them. *)
Fixpoint try_formats (bld : build) (be : backend) (ks : list format) (off highmem : option N) (r : reader) (m : gmem)
  : reader * gmem * option (format * load_result) :=
  match ks with
  | [] => (r, m, None)
  | k :: ks' =>
      match load_as bld be k off highmem r m with
      | (r', m', Ok res) => (r', m', Some (k, res))
      | (r', m', _) => try_formats bld be ks' off highmem r' m'
      end
  end.

Lemma load_as_perform bld be k off highmem r m :
  perform bld be (as_task k off highmem r) m = match load_as bld be k off highmem r m with (_, m', o) => (m', Loaded o) end.
Proof. destruct k; reflexivity. Qed.

Definition usable (r : reader) : Prop := wf_reader r /\ 0x1f1 <= rd_maxpos r /\ ~ short_or_fault r.
Lemma usable_env r r' : usable r -> rd_same_env r r' -> usable r'.
Proof.
  intros ((W1 & W2 & W3) & Hm & Hs) (E1 & E2 & E3 & E4). unfold usable, wf_reader, short_or_fault, short_reads in *. rewrite E1, E2, E3, E4. auto.
Qed.
Lemma load_as_env bld be k off highmem r m r' m' o : usable r -> wf_mem m = true ->
  load_as bld be k off highmem r m = (r', m', o) -> rd_same_env r r' /\ regions m' = regions m.
Proof.
  intros (Hr & Hm & _) Hw H. destruct k; cbn [load_as] in H.
  - destruct (elf_load_spec _ _ _ _ _ _ _ _ _ Hr Hw H) as (E1 & E2 & _). auto.
  - destruct (bz_load_spec _ _ _ _ _ _ _ _ Hr Hm Hw H) as (E1 & E2 & _). auto.
  - destruct (pe_load_spec _ _ _ _ _ _ _ _ _ Hr Hw H) as (E1 & _). split; [exact E1|].
    assert (Hp : perform bld be (LoadPe a off highmem r) m = (m', Loaded o)) by (cbn; now rewrite H).
    destruct (C56_frame bld be (LoadPe a off highmem r) m m' (Loaded o) Hw Hr Hp) as ((E & _) & _). exact E.
Qed.

Lemma as_task_typed k off highmem r : usable r -> (forall a, off = Some a -> a < 2 ^ 64) -> task_typed (as_task k off highmem r).
Proof. intros (H1 & H2 & _) Ho. destruct k; cbn; auto. Qed.
Lemma as_task_steady be k off highmem r : usable r -> steady be (as_task k off highmem r).
Proof. intros (_ & _ & H). destruct k; cbn; try exact H; intros X; apply H; exact (trouble_short be _ X). Qed.

(** The same format on the same file, the handle left anywhere, memory with other contents. *)
Lemma same_attempt bld be k off highmem r r1 m m1 rd md od r' m' o' :
  usable r -> rd_same_env r r1 -> (forall a, off = Some a -> a < 2 ^ 64) -> wf_mem m = true -> regions m1 = regions m ->
  load_as bld be k off highmem r m = (rd, md, od) -> load_as bld be k off highmem r1 m1 = (r', m', o') ->
  o' = od /\ forall y, backed m y -> gm_byte m1 y = gm_byte m y -> gm_byte m' y = gm_byte md y.
Proof.
  intros Hu He Hoff Hw Hreg Hd H1. assert (Hw1 : wf_mem m1 = true) by (rewrite <- Hw; apply wf_mem_regions; exact Hreg).
  destruct (load_as bld be k off highmem r m1) as [[rx mx] ox] eqn:Hx.
  assert (Pd : perform bld be (as_task k off highmem r) m = (md, Loaded od)) by (rewrite load_as_perform, Hd; reflexivity).
  assert (Px : perform bld be (as_task k off highmem r) m1 = (mx, Loaded ox)) by (rewrite load_as_perform, Hx; reflexivity).
  assert (P1 : perform bld be (as_task k off highmem r1) m1 = (m', Loaded o')) by (rewrite load_as_perform, H1; reflexivity).
  destruct (C57_contents_irrelevant _ _ _ _ _ _ _ _ _ Hreg Px Pd) as (E1 & _ & E3).
  assert (Hu1 : usable r1) by (eapply usable_env; eassumption).
  destruct (C61_environment_irrelevant bld be (as_task k off highmem r1) (as_task k off highmem r) m1 m1 m' mx (Loaded o') (Loaded ox) Hw1 Hw1) as (E4 & E5 & E6).
  - split; [reflexivity|auto].
  - destruct He as (F1 & F2 & _). destruct k; cbn; unfold same_image; rewrite F1, F2; auto.
  - now apply as_task_steady.
  - now apply as_task_steady.
  - exact P1.
  - exact Px.
  - split; [congruence|]. intros y Hy Heq. rewrite <- (E3 y Heq). apply E6.
    assert (Hrm : regions m' = regions m1) by exact (proj2 (load_as_env _ _ _ _ _ _ _ _ _ _ Hu1 Hw1 H1)).
    unfold backed in *. rewrite Hrm, Hreg. exact Hy.
Qed.

(** [direct k o mk]: loading the file as [k] right away gives outcome [o] and memory [mk]. *)
Definition direct bld be off highmem r m (k : format) (o : outcome lerror load_result) (mk : gmem) : Prop :=
  exists rk, load_as bld be k off highmem r m = (rk, mk, o).

Theorem C70_formats_in_turn : forall bld be ks off highmem r m r' m' x,
  usable r -> (forall a, off = Some a -> a < 2 ^ 64) -> wf_mem m = true ->
  try_formats bld be ks off highmem r m = (r', m', x) ->
  match x with
  | None => forall k, In k ks -> exists e mk, direct bld be off highmem r m k (Err e) mk
  | Some (k, res) =>
      exists pre post md, ks = pre ++ k :: post /\ direct bld be off highmem r m k (Ok res) md /\
        (forall j, In j pre -> exists e mj, direct bld be off highmem r m j (Err e) mj) /\
        (forall p a bs q, writes (as_task k off highmem r) (Loaded (Ok res)) = p ++ (a, bs) :: q ->
           (forall s, In s q -> disjoint (a, bs) s) -> holds_at m' a bs) /\
        (* every byte the failed attempts leave alone is as after the direct load *)
        (forall y, backed m y -> (forall j e mj, In j pre -> direct bld be off highmem r m j (Err e) mj -> gm_byte mj y = gm_byte m y) ->
           gm_byte m' y = gm_byte md y)
  end.
Proof.
  intros bld be ks off highmem r m r' m' x Hu Hoff Hw.
  (* generalised over the handle and memory left by the attempts made so far *)
  assert (G : forall ks (failed : list format) r1 m1 r' m' x, rd_same_env r r1 -> regions m1 = regions m ->
    (forall j, In j failed -> exists e mj, direct bld be off highmem r m j (Err e) mj) ->
    (forall y, backed m y -> (forall j e mj, In j failed -> direct bld be off highmem r m j (Err e) mj -> gm_byte mj y = gm_byte m y) ->
       gm_byte m1 y = gm_byte m y) ->
    try_formats bld be ks off highmem r1 m1 = (r', m', x) ->
    match x with
    | None => forall k, In k ks -> exists e mk, direct bld be off highmem r m k (Err e) mk
    | Some (k, res) =>
        exists pre post md, ks = pre ++ k :: post /\ direct bld be off highmem r m k (Ok res) md /\
          (forall j, In j pre -> exists e mj, direct bld be off highmem r m j (Err e) mj) /\
          (forall p a bs q, writes (as_task k off highmem r) (Loaded (Ok res)) = p ++ (a, bs) :: q ->
             (forall s, In s q -> disjoint (a, bs) s) -> holds_at m' a bs) /\
          (forall y, backed m y -> (forall j e mj, In j (failed ++ pre) -> direct bld be off highmem r m j (Err e) mj -> gm_byte mj y = gm_byte m y) ->
             gm_byte m' y = gm_byte md y)
    end).
  { clear r' m' x. induction ks0 as [|k ks' IH]; intros failed r1 m1 r' m' x He Hreg Hfail Hsame H; cbn [try_formats] in H.
    - injection H as <- <- <-. intros k [].
    - destruct (load_as bld be k off highmem r1 m1) as [[r2 m2] o2] eqn:H2. destruct (load_as bld be k off highmem r m) as [[rk mk] ok] eqn:Hd.
      destruct (same_attempt _ _ _ _ _ _ _ _ _ _ _ _ _ _ _ Hu He Hoff Hw Hreg Hd H2) as [-> Hbytes].
      assert (Hw1 : wf_mem m1 = true) by (rewrite <- Hw; apply wf_mem_regions; exact Hreg).
      assert (Hu1 : usable r1) by (eapply usable_env; eassumption).
      destruct (load_as_env _ _ _ _ _ _ _ _ _ _ Hu1 Hw1 H2) as [He2 Hreg2].
      destruct ok as [res|e|q].
      + injection H as <- <- <-. exists [], ks', mk. split; [reflexivity|]. split; [exists rk; exact Hd|]. split; [intros j []|]. split.
        * intros p a bs q Hwr Hq.
          assert (P1 : perform bld be (as_task k off highmem r1) m1 = (m2, Loaded (Ok res))) by (rewrite load_as_perform, H2; reflexivity).
          apply (C58_pieces_survive bld be [] (as_task k off highmem r1) [] m1 m2 [Loaded (Ok res)] (Loaded (Ok res)) p a bs q); try assumption.
          -- constructor; [apply as_task_typed; assumption|constructor].
          -- cbn [app perform_all]. rewrite P1. reflexivity.
          -- reflexivity.
          -- left. eauto.
          -- rewrite <- Hwr. destruct He as (F1 & _). destruct k; cbn; rewrite F1; reflexivity.
          -- intros u y [].
        * intros y Hy Hno. apply Hbytes; [exact Hy|]. apply Hsame; [exact Hy|]. intros j e mj Hj. apply (Hno j e mj). apply in_or_app. now left.
      + specialize (IH (failed ++ [k]) r2 m2 r' m' x (rd_same_env_trans _ _ _ He He2) (eq_trans Hreg2 Hreg)).
        assert (Hk : direct bld be off highmem r m k (Err e) mk) by (exists rk; exact Hd).
        assert (Hf2 : forall j, In j (failed ++ [k]) -> exists e mj, direct bld be off highmem r m j (Err e) mj).
        { intros j Hj. apply in_app_or in Hj as [Hj|[<-|[]]]; [auto|eauto]. }
        specialize (IH Hf2). assert (Hs2 : forall y, backed m y -> (forall j e mj, In j (failed ++ [k]) -> direct bld be off highmem r m j (Err e) mj -> gm_byte mj y = gm_byte m y) ->
          gm_byte m2 y = gm_byte m y).
        { intros y Hy Hno. rewrite (Hbytes y Hy); [apply (Hno k e mk); [apply in_elt|exact Hk]|].
          apply Hsame; [exact Hy|]. intros j e' mj Hj. apply (Hno j e' mj). apply in_or_app. now left. }
        specialize (IH Hs2 H). destruct x as [[kk res]|].
        * destruct IH as (pre & post & md & -> & A & B & C & D). exists (k :: pre), post, md. split; [reflexivity|]. split; [exact A|]. split.
          { intros j [<-|Hj]; [eauto|auto]. } split; [exact C|]. intros y Hy Hno. apply D; [exact Hy|].
          intros j e' mj Hj. apply (Hno j e' mj). rewrite <- app_assoc in Hj. exact Hj.
        * intros j [<-|Hj]; [eauto|auto].
      + exfalso. assert (Pd : perform bld be (as_task k off highmem r) m = (mk, Loaded (Panic q))) by (rewrite load_as_perform, Hd; reflexivity).
        destruct (C56_frame _ _ _ _ _ _ Hw (as_task_typed k off highmem r Hu Hoff) Pd) as [_ Hnp]. apply Hnp. exists q. now left. }
  intros H. specialize (G ks [] r m r' m' x (rd_same_env_refl r) eq_refl). cbn [app] in G. apply G; auto. intros j [].
Qed.

(** ** C71: an arm64 / riscv64 boot.  The VMM loads an Image and then performs any calls on separate
    areas in any order; the guest finds the kernel, every device tree (written by the configurator
    or loaded from a file) and every command line. *)
Theorem C71_fdt_boot : forall bld be a off highmem r m m1 res ts m2 xs,
  wf_mem m = true -> task_typed (LoadPe a off highmem r) ->
  perform bld be (LoadPe a off highmem r) m = (m1, Loaded (Ok res)) ->
  Forall task_typed ts -> all_separate (LoadPe a off highmem r :: ts) -> perform_all bld be ts m1 = (m2, xs) ->
  holds_at m2 (kernel_load res) (rd_data r) /\
  (forall p, reported ts xs (WriteFdt p) (Written (Ok tt)) -> holds_at m2 (header_start p) (header p)) /\
  (forall addr im, reported ts xs (LoadDtb addr im) (Done (Ok tt)) -> holds_at m2 addr (rd_data im)) /\
  (forall addr c, reported ts xs (LoadCmdline addr c) (Done (Ok tt)) -> exists s, as_cstring c = Ok s /\ guest_string m2 addr s).
Proof.
  intros bld be a off highmem r m m1 res ts m2 xs Hw Ht E Hts Hsep H.
  assert (Hw1 : wf_mem m1 = true) by (rewrite <- Hw; apply wf_mem_regions; apply (C56_success_writes _ _ _ _ _ _ Hw Ht E); left; eauto).
  assert (Hall : perform_all bld be (LoadPe a off highmem r :: ts) m = (m2, Loaded (Ok res) :: xs)).
  { cbn [perform_all]. rewrite E, H. reflexivity. }
  assert (Htt : Forall task_typed (LoadPe a off highmem r :: ts)) by now constructor.
  assert (G : forall t x addr bs, reported ts xs t x -> success x -> writes t x = [(addr, bs)] -> holds_at m2 addr bs).
  { intros t x addr bs (i & I1 & I2) Hs Hwr.
    apply (C58_all_in_place bld be _ m m2 _ t x [] addr bs [] Hw Htt Hsep Hall); [exists (S i); split; assumption|exact Hs|exact Hwr|intros s []]. }
  split; [|split; [|split]].
  - assert (Hl : kernel_load res = pe_load_addr a (rd_data r) off).
    { cbn [perform] in E. destruct (pe_load a be off highmem r m) as [[r' m'] o] eqn:F. injection E as -> ->.
      assert (Hr : pe_runs a be off highmem r m m1 (Ok res)) by (split; [exact Ht|split; [exact Hw|eauto]]).
      destruct (C39_pe_placement _ _ _ _ _ _ _ _ Hr) as (Hl & _). exact Hl. }
    rewrite Hl. apply (C58_all_in_place bld be _ m m2 _ (LoadPe a off highmem r) (Loaded (Ok res)) [] _ (rd_data r) [] Hw Htt Hsep Hall);
      [exists O; split; reflexivity|left; eauto|reflexivity|intros s []].
  - intros p Hp. apply (G _ _ _ _ Hp); [right; right; reflexivity|reflexivity].
  - intros addr im Hp. apply (G _ _ _ _ Hp); [right; left; reflexivity|reflexivity].
  - intros addr c Hp. destruct (cmdline_call_string _ _ _ _ _ _ _ _ Hw1 Hts H Hp) as (s & Es & Hs). exists s. split; [exact Es|]. split; [|exact Hs].
    apply (G _ _ _ _ Hp); [right; left; reflexivity|cbn [writes]; rewrite Es; reflexivity].
Qed.

(** ** Concrete cases meeting the hypotheses. *)
(** C69: the bzImage of C63 is loaded, and a device tree goes right behind it. *)
Example C69_applies : forall be, exists m1 res m2,
  perform true be boot_bz demo_mem = (m1, Loaded (Ok res)) /\ task_typed boot_bz /\ honest boot_bz /\
  kernel_end res = 0x4008 /\
  let u := LoadDtb 0x4008 (plain_reader [x01; x02; x03]) in
  task_typed u /\ (forall x, touches u x -> kernel_end res <= x) /\
  perform_all true be [u] m1 = (m2, [Done (Ok tt)]) /\ peek m2 0x4007 4 <> peek demo_mem 0x4007 4.
Proof.
  intros be. do 3 eexists. split; [destruct be; vm_compute; reflexivity|].
  split. { split; [apply plain_wf; reflexivity|]. split; [vm_compute; discriminate|]. intros a Ea. inversion Ea. reflexivity. }
  split; [exact I|]. split; [reflexivity|]. cbv zeta. split; [apply plain_wf; reflexivity|]. split.
  - intros x [H _]. exact H.
  - split; [destruct be; vm_compute; reflexivity|destruct be; vm_compute; discriminate].
Qed.
(** The ELF demonstration image is honest too. *)
Example C69_applies_elf : forall be, exists m1 res,
  perform true be (LoadElf None None (plain_reader demo_elf)) demo_mem = (m1, Loaded (Ok res)) /\ honest (LoadElf None None (plain_reader demo_elf)).
Proof.
  intros be. do 2 eexists. split; [destruct be; vm_compute; reflexivity|].
  cbn [honest]. intros p Hp Hl. revert Hl. change (rd_data (plain_reader demo_elf)) with demo_elf in Hp.
  assert (H : forallb (fun p => negb (is_load p) || (ph_filesz p <=? ph_memsz p)) (phdrs_of demo_elf) = true) by (vm_compute; reflexivity).
  rewrite forallb_forall in H. specialize (H p Hp). intros Hl. rewrite Hl in H. cbn in H. apply N.leb_le in H. exact H.
Qed.

(** C70: a bzImage offered first as an ELF file, then as an Image, then as a bzImage. *)
Example C70_applies : forall be, exists r' m' res,
  usable (plain_reader demo_bz) /\
  try_formats true be [FElf; FPe Aarch64; FBz] (Some 0x4000) None (plain_reader demo_bz) demo_mem = (r', m', Some (FBz, res)) /\
  kernel_load res = 0x4000.
Proof.
  intros be. do 3 eexists. split.
  - split; [apply plain_wf; reflexivity|]. split; [vm_compute; discriminate|]. apply quiet_plain; reflexivity.
  - split; [destruct be; vm_compute; reflexivity|reflexivity].
Qed.
(** C71: Image, device tree file, device tree from the configurator, command line. *)
Definition fdt_tree : boot_info := bp_new [x0d; x0e] 0x200400.
Example C71_applies : forall be, exists m1 res m2,
  let pe := LoadPe Aarch64 (Some 0x200000) None (plain_reader (demo_pe Aarch64 0x80 4096)) in
  let ts := [LoadCmdline 0x200800 boot_line; WriteFdt fdt_tree; LoadDtb 0x200500 (plain_reader [x01; x02])] in
  perform true be pe pe_mem = (m1, Loaded (Ok res)) /\ task_typed pe /\ Forall task_typed ts /\ all_separate (pe :: ts) /\
  perform_all true be ts m1 = (m2, [Done (Ok tt); Written (Ok tt); Done (Ok tt)]).
Proof.
  intros be. do 3 eexists. cbv zeta. split; [destruct be; vm_compute; reflexivity|].
  split; [apply plain_wf; reflexivity|]. split; [repeat constructor; apply plain_wf; reflexivity|]. split.
  - assert (A : forall x, touches (LoadPe Aarch64 (Some 0x200000) None (plain_reader (demo_pe Aarch64 0x80 4096))) x -> 0x200080 <= x < 0x200100).
    { intros x Hx. unfold touches, in_range in Hx.
      change (pe_load_addr Aarch64 (rd_data (plain_reader (demo_pe Aarch64 0x80 4096))) (Some 0x200000)) with 0x200080 in Hx.
      assert (El : lenN (rd_data (plain_reader (demo_pe Aarch64 0x80 4096))) = 67) by (vm_compute; reflexivity). rewrite El in Hx. lia. }
    assert (B : forall x, touches (LoadCmdline 0x200800 boot_line) x -> 0x200800 <= x).
    { intros x Hx. cbn [touches] in Hx. destruct (as_cstring boot_line); [|contradiction|contradiction]. destruct Hx as [Hx _]. exact Hx. }
    assert (C : forall x, touches (WriteFdt fdt_tree) x -> 0x200400 <= x < 0x200402) by (intros x Hx; exact Hx).
    assert (D : forall x, touches (LoadDtb 0x200500 (plain_reader [x01; x02])) x -> 0x200500 <= x < 0x200502) by (intros x Hx; exact Hx).
    apply FOP_cons; [|apply FOP_cons; [|apply FOP_cons; [|apply FOP_cons; [|apply FOP_nil]]]]; repeat (apply Forall_cons || apply Forall_nil);
      intros x H1 H2;
      repeat match goal with
      | H : touches (LoadPe _ _ _ _) x |- _ => apply A in H
      | H : touches (LoadCmdline _ _) x |- _ => apply B in H
      | H : touches (WriteFdt _) x |- _ => apply C in H
      | H : touches (LoadDtb _ _) x |- _ => apply D in H
      end; lia.
  - destruct be; vm_compute; reflexivity.
Qed.
