(** * Props_Guest: what Linux makes of the boot information (C107: zero page, C108: PVH start info). *)
From Coq Require Import ZArith.
From Verif Require Import Base Base_proofs Io Mem SpecMem Mem_proofs Layout SpecFile File_proofs Text Cmdline SpecCmdline Text_proofs Cmdline_proofs
  Cmdline_proofs2 Cmdline_proofs3 Loader Elf SpecElf
  BzImage SpecBz Bz_proofs Pe SpecPe BootParams Configurators SpecBoot SpecAbi Layout_proofs Demo_elf SpecVmm Vmm_proofs
  Props_Cmdline Props_Loader Props_Elf Props_Bz Props_Config Props_Boot Props_Abi Props_Vmm Props_Boot_e2e SpecKernel Props_Kernel SpecDriver Props_Driver SpecGuest.
Local Open Scope list_scope.

(** ** Reading *)
Lemma n8_zero b : n8 b =? 0 = true -> b = x00.
Proof. destruct b; intros H; try discriminate H; reflexivity. Qed.
Lemma text_at_string m s : forall a room, (length s <= room)%nat -> guest_string m a s -> text_at m a room = map n8 s.
Proof.
  induction s as [|b s IH]; intros a room Hr [H Z].
  - destruct room as [|room]; [reflexivity|]. cbn [text_at map]. pose proof (H 0 x00 eq_refl) as B. rewrite N.add_0_r in B. rewrite B. reflexivity.
  - destruct room as [|room]; [cbn in Hr; lia|]. cbn [text_at map]. pose proof (H 0 b eq_refl) as B. rewrite N.add_0_r in B. rewrite B.
    destruct (n8 b =? 0) eqn:E; [exfalso; apply Z; left; exact (n8_zero b E)|]. f_equal. apply IH; [cbn in Hr; lia|]. split.
    + intros i x Hi. replace (a + 1 + i) with (a + (i + 1)) by lia. apply H. replace (N.to_nat (i + 1)) with (S (N.to_nat i)) by lia. exact Hi.
    + intros Hin. apply Z. right; exact Hin.
Qed.
Lemma line_at_string m a s : lenN s < 2048 -> guest_string m a s -> line_at m a = map n8 s.
Proof. intros L G. apply text_at_string; [unfold lenN in L; lia|exact G]. Qed.

Lemma usable_typed ram : map_typed ram -> 2 <= N.of_nat (length ram) -> usable ram = Some ram.
Proof.
  intros T L. unfold usable. destruct (N.ltb_spec (N.of_nat (length ram)) 2); [lia|]. cbn [orb].
  destruct (existsb passes_end ram) eqn:E; [|reflexivity]. apply existsb_exists in E as ([[a s] t] & Hin & Hp).
  destruct (T a s t Hin) as (_ & _ & _ & Hb). unfold passes_end in Hp. destruct (N.ltb_spec (2 ^ 64) (a + s)); [lia|].
  rewrite Bool.andb_false_r in Hp. discriminate.
Qed.

(** ** The assignments *)
Lemma e820_paths ram : forall i q v, In (q, v) (e820_assignments i ram) -> exists j n, i <= j /\ q = [Fld "e820_table"; Idx j; Fld n] /\
  (n = "addr" \/ n = "size" \/ n = "type")%string.
Proof.
  induction ram as [|[[a s] t] r IH]; intros i q v H; [destruct H|]. cbn [e820_assignments In] in H.
  destruct H as [H|[H|[H|H]]].
  1-3: injection H as <- _; exists i; eexists; split; [lia|split; [reflexivity|tauto]].
  destruct (IH _ _ _ H) as (j & n & Hj & E & Hn). exists j, n. split; [lia|]. split; assumption.
Qed.
Lemma last_app path l1 l2 : last_value path (l1 ++ l2) = match last_value path l2 with Some v => Some v | None => last_value path l1 end.
Proof.
  induction l1 as [|[q v] l1 IH]; cbn [app last_value]; [destruct (last_value path l2); reflexivity|].
  rewrite IH. destruct (last_value path l2); reflexivity.
Qed.
Lemma last_none path asg : (forall q v, In (q, v) asg -> q <> path) -> last_value path asg = None.
Proof.
  induction asg as [|[q v] asg IH]; intros H; [reflexivity|]. cbn [last_value]. rewrite IH by (intros q' v' Hin; apply (H q' v'); right; exact Hin).
  destruct (list_eq_dec step_eq_dec q path) as [E|_]; [|reflexivity]. exfalso. apply (H q v); [left; reflexivity|exact E].
Qed.
Lemma e820_value ram : forall i k a s t, nth_error ram k = Some (a, s, t) ->
  last_value [Fld "e820_table"; Idx (i + N.of_nat k); Fld "addr"] (e820_assignments i ram) = Some a /\
  last_value [Fld "e820_table"; Idx (i + N.of_nat k); Fld "size"] (e820_assignments i ram) = Some s /\
  last_value [Fld "e820_table"; Idx (i + N.of_nat k); Fld "type"] (e820_assignments i ram) = Some t.
Proof.
  induction ram as [|[[a0 s0] t0] r IH]; intros i k a s t H; [destruct k; discriminate|].
  change (e820_assignments i ((a0, s0, t0) :: r)) with
    ([([Fld "e820_table"; Idx i; Fld "addr"], a0); ([Fld "e820_table"; Idx i; Fld "size"], s0); ([Fld "e820_table"; Idx i; Fld "type"], t0)]
     ++ e820_assignments (i + 1) r).
  rewrite !last_app. destruct k as [|k]; cbn [nth_error] in H.
  - injection H as -> -> ->. rewrite N.add_0_r.
    assert (None3 : forall n, last_value [Fld "e820_table"; Idx i; Fld n] (e820_assignments (i + 1) r) = None).
    { intros n. apply last_none. intros q v Hin Eq. destruct (e820_paths r (i + 1) q v Hin) as (j & n' & Hj & -> & _). injection Eq as Ej _. lia. }
    rewrite !None3. cbn [last_value].
    repeat match goal with |- context [list_eq_dec step_eq_dec ?x ?y] => destruct (list_eq_dec step_eq_dec x y) as [?|?]; try congruence end.
    split; [reflexivity|split; reflexivity].
  - replace (i + N.of_nat (S k)) with (i + 1 + N.of_nat k) by lia. destruct (IH (i + 1) k a s t H) as (-> & -> & ->).
    split; [reflexivity|split; reflexivity].
Qed.

Ltac div := repeat first [apply div_fld; discriminate | apply div_idx; lia | apply div_step].
Lemma page_whole_hdr path ram line rd rs :
  (exists p, hd_error path = Some (Fld p) /\ p <> "e820_table"%string) ->
  (forall q v, In (q, v) (firstn 8 (page_assignments ram line rd rs)) -> q = path \/ diverge q path) ->
  whole_fields path (page_assignments ram line rd rs).
Proof.
  intros (p & Hp & Np) H q v Hin. unfold page_assignments in Hin. apply in_app_iff in Hin as [Hin|Hin]; [apply (H q v); exact Hin|].
  right. destruct (e820_paths ram 0 q v Hin) as (j & n & _ & -> & _). destruct path as [|s path]; [discriminate|]. injection Hp as ->.
  apply div_fld. congruence.
Qed.
Lemma page_whole_e820 i n ram line rd rs : (n = "addr" \/ n = "size" \/ n = "type")%string ->
  whole_fields [Fld "e820_table"; Idx i; Fld n] (page_assignments ram line rd rs).
Proof.
  intros Hn q v Hin. unfold page_assignments in Hin. apply in_app_iff in Hin as [Hin|Hin].
  - right. cbn [In] in Hin. repeat (destruct Hin as [Hin|Hin]; [injection Hin as <- _; apply div_fld; discriminate|]). destruct Hin.
  - destruct (e820_paths ram 0 q v Hin) as (j & n' & _ & -> & Hn'). destruct (N.eq_dec j i) as [->|Nj].
    + destruct (String.string_dec n' n) as [->|Nn]; [left; reflexivity|]. right. apply div_step, div_step, div_fld. exact Nn.
    + right. apply div_step, div_idx. exact Nj.
Qed.
Lemma page_last path ram line rd rs : (exists p, hd_error path = Some (Fld p) /\ p <> "e820_table"%string) ->
  last_value path (page_assignments ram line rd rs) = last_value path (firstn 8 (page_assignments ram line rd rs)).
Proof.
  intros (p & Hp & Np). unfold page_assignments. rewrite last_app, last_none; [reflexivity|].
  intros q v Hin E. destruct (e820_paths ram 0 q v Hin) as (j & n & _ & -> & _). subst path. injection Hp as <-. contradiction.
Qed.

(** ** C107 *)
Lemma split32 v : v < 2 ^ 64 -> v mod 2 ^ 32 + 2 ^ 32 * ((v / 2 ^ 32) mod 2 ^ 32) = v.
Proof.
  intros H. rewrite (N.mod_small (v / 2 ^ 32)).
  - rewrite N.add_comm. symmetry. apply N.div_mod. discriminate.
  - apply N.div_lt_upper_bound; [discriminate|]. exact H.
Qed.
Lemma e820_from_table m a ram : forall b, (forall k x s t, nth_error ram k = Some (x, s, t) ->
    guest_uint m (a + 20 * (b + N.of_nat k)) 8 = x /\ guest_uint m (a + 20 * (b + N.of_nat k) + 8) 8 = s /\ guest_uint m (a + 20 * (b + N.of_nat k) + 16) 4 = t) ->
  e820_from m (a + 20 * b) (length ram) = ram.
Proof.
  induction ram as [|[[x s] t] r IH]; intros b H; [reflexivity|]. cbn [length e820_from].
  destruct (H O x s t eq_refl) as (H1 & H2 & H3). rewrite N.add_0_r in *. rewrite H1, H2, H3. f_equal.
  replace (a + 20 * b + 20) with (a + 20 * (b + 1)) by lia. apply IH. intros k x' s' t' Hk.
  replace (b + 1 + N.of_nat k) with (b + N.of_nat (S k)) by lia. exact (H (S k) x' s' t' Hk).
Qed.

Ltac evaluated :=
  cbn [last_value firstn page_assignments app];
  repeat match goal with |- context [list_eq_dec step_eq_dec ?x ?y] => destruct (list_eq_dec step_eq_dec x y) as [?|?]; try congruence end.
Lemma page_view m z page h ram line rd rs s :
  lenN page = 4096 -> lenN h = 123 -> uint_at page 0x1ef 1 = 0 -> map_typed ram -> 2 <= lenN ram <= 128 ->
  line < 2 ^ 64 -> rd < 2 ^ 64 -> rs < 2 ^ 64 ->
  holds_at m z (linux_page page h ram line rd rs) -> guest_string m line s -> lenN s < 2048 ->
  view_zero_page m z = Some (mkView ram (ramdisk_of 255 rd rs) (map n8 s)).
Proof.
  intros Lp Lh Sen T Ln Hl Hrd Hrs H Gs Ls. unfold linux_page in H.
  set (base := set_bytes boot_params [Fld "hdr"] h page) in *.
  assert (Lb : lenN base = 4096) by exact (len_set_hdr page h Lp Lh).
  assert (G : forall path o sz, zero_page_place path o sz -> whole_fields path (page_assignments ram line rd rs) ->
    guest_uint m (z + o) (N.to_nat sz) = match last_value path (page_assignments ram line rd rs) with Some v => v mod 256 ^ sz | None => uint_at base o (N.to_nat sz) end).
  { intros path o sz Hp Hw. destruct (C53_zero_page_places _ _ _ Hp) as (t' & E & <-). exact (guest_sees_held _ _ _ _ _ _ _ _ E Lb Hw H). }
  assert (F : forall p path o sz, zero_page_place (Fld p :: path) o sz -> p <> "e820_table"%string ->
    (forall q v, In (q, v) (firstn 8 (page_assignments ram line rd rs)) -> q = Fld p :: path \/ diverge q (Fld p :: path)) ->
    guest_uint m (z + o) (N.to_nat sz) =
      match last_value (Fld p :: path) (firstn 8 (page_assignments ram line rd rs)) with Some v => v mod 256 ^ sz | None => uint_at base o (N.to_nat sz) end).
  { intros p path o sz Hp Np Hd. assert (X : exists x, hd_error (Fld p :: path) = Some (Fld x) /\ x <> "e820_table"%string) by (exists p; split; [reflexivity|exact Np]).
    rewrite (G _ _ _ Hp (page_whole_hdr _ ram line rd rs X Hd)), (page_last _ _ _ _ _ X). reflexivity. }
  assert (Dv : forall q v path, In (q, v) (firstn 8 (page_assignments ram line rd rs)) ->
     In path [[Fld "hdr"; Fld "type_of_loader"]; [Fld "hdr"; Fld "cmd_line_ptr"]; [Fld "ext_cmd_line_ptr"]; [Fld "hdr"; Fld "ramdisk_image"];
       [Fld "ext_ramdisk_image"]; [Fld "hdr"; Fld "ramdisk_size"]; [Fld "ext_ramdisk_size"]; [Fld "e820_entries"]; [Fld "sentinel"]] -> q = path \/ diverge q path).
  { intros q v path Hq Hp. cbn [firstn page_assignments app In] in Hq, Hp.
    repeat (destruct Hq as [Hq|Hq]; [injection Hq as <- _; repeat (destruct Hp as [<-|Hp]; [first [left; reflexivity|right; div]|]); destruct Hp|]).
    destruct Hq. }
  assert (F0 : guest_uint m (z + 0x1ef) 1 = 0).
  { pose proof (F "sentinel" [] 0x1ef 1 ltac:(apply zp_field; vm_compute; tauto) ltac:(discriminate) ltac:(intros q v Hq; apply (Dv q v _ Hq); cbn; tauto)) as X.
    change (N.to_nat 1) with 1%nat in X. rewrite X. evaluated.
    cbn [uint_at] in Sen |- *. unfold base. rewrite (nth_set_hdr page h 0x1ef Lp Lh). exact Sen. }
  assert (F1 : guest_uint m (z + 0x1e8) 1 = lenN ram).
  { pose proof (F "e820_entries" [] 0x1e8 1 ltac:(apply zp_field; vm_compute; tauto) ltac:(discriminate) ltac:(intros q v Hq; apply (Dv q v _ Hq); cbn; tauto)) as X.
    change (N.to_nat 1) with 1%nat in X. rewrite X. evaluated. unfold lenN in *. apply N.mod_small. change (256 ^ 1) with 256. lia. }
  assert (F2 : guest_uint m (z + 0x210) 1 = 255).
  { pose proof (F "hdr" [Fld "type_of_loader"] 0x210 1 ltac:(apply (zp_hdr "type_of_loader" 0x1f 1); vm_compute; tauto) ltac:(discriminate)
      ltac:(intros q v Hq; apply (Dv q v _ Hq); cbn; tauto)) as X.
    change (N.to_nat 1) with 1%nat in X. rewrite X. evaluated. reflexivity. }
  assert (F3 : guest_uint m (z + 0x228) 4 = line mod 2 ^ 32).
  { pose proof (F "hdr" [Fld "cmd_line_ptr"] 0x228 4 ltac:(apply (zp_hdr "cmd_line_ptr" 0x37 4); vm_compute; tauto) ltac:(discriminate)
      ltac:(intros q v Hq; apply (Dv q v _ Hq); cbn; tauto)) as X.
    change (N.to_nat 4) with 4%nat in X. rewrite X. evaluated. reflexivity. }
  assert (F4 : guest_uint m (z + 0xc8) 4 = (line / 2 ^ 32) mod 2 ^ 32).
  { pose proof (F "ext_cmd_line_ptr" [] 0xc8 4 ltac:(apply zp_field; vm_compute; tauto) ltac:(discriminate) ltac:(intros q v Hq; apply (Dv q v _ Hq); cbn; tauto)) as X.
    change (N.to_nat 4) with 4%nat in X. rewrite X. evaluated. reflexivity. }
  assert (F5 : guest_uint m (z + 0x218) 4 = rd mod 2 ^ 32).
  { pose proof (F "hdr" [Fld "ramdisk_image"] 0x218 4 ltac:(apply (zp_hdr "ramdisk_image" 0x27 4); vm_compute; tauto) ltac:(discriminate)
      ltac:(intros q v Hq; apply (Dv q v _ Hq); cbn; tauto)) as X.
    change (N.to_nat 4) with 4%nat in X. rewrite X. evaluated. reflexivity. }
  assert (F6 : guest_uint m (z + 0xc0) 4 = (rd / 2 ^ 32) mod 2 ^ 32).
  { pose proof (F "ext_ramdisk_image" [] 0xc0 4 ltac:(apply zp_field; vm_compute; tauto) ltac:(discriminate) ltac:(intros q v Hq; apply (Dv q v _ Hq); cbn; tauto)) as X.
    change (N.to_nat 4) with 4%nat in X. rewrite X. evaluated. reflexivity. }
  assert (F7 : guest_uint m (z + 0x21c) 4 = rs mod 2 ^ 32).
  { pose proof (F "hdr" [Fld "ramdisk_size"] 0x21c 4 ltac:(apply (zp_hdr "ramdisk_size" 0x2b 4); vm_compute; tauto) ltac:(discriminate)
      ltac:(intros q v Hq; apply (Dv q v _ Hq); cbn; tauto)) as X.
    change (N.to_nat 4) with 4%nat in X. rewrite X. evaluated. reflexivity. }
  assert (F8 : guest_uint m (z + 0xc4) 4 = (rs / 2 ^ 32) mod 2 ^ 32).
  { pose proof (F "ext_ramdisk_size" [] 0xc4 4 ltac:(apply zp_field; vm_compute; tauto) ltac:(discriminate) ltac:(intros q v Hq; apply (Dv q v _ Hq); cbn; tauto)) as X.
    change (N.to_nat 4) with 4%nat in X. rewrite X. evaluated. reflexivity. }
  assert (Tab : e820_from m (z + 0x2d0) (length ram) = ram).
  { replace (z + 0x2d0) with (z + 0x2d0 + 20 * 0) by lia. apply e820_from_table. intros k x sz t Hk. rewrite N.add_0_l.
    assert (Kl : N.of_nat k < 128) by (assert (k < length ram)%nat by (apply nth_error_Some; congruence); unfold lenN in Ln; lia).
    destruct (T x sz t (nth_error_In _ _ Hk)) as (Tx & Ts & Tt & _).
    destruct (e820_value ram 0 k x sz t Hk) as (V1 & V2 & V3). rewrite N.add_0_l in V1, V2, V3.
    assert (E820 : forall n o w v, In (n, o, w) (snd abi_e820_entry) -> (n = "addr" \/ n = "size" \/ n = "type")%string ->
      last_value [Fld "e820_table"; Idx (N.of_nat k); Fld n] (e820_assignments 0 ram) = Some v -> v < 256 ^ w ->
      guest_uint m (z + (0x2d0 + 20 * N.of_nat k + o)) (N.to_nat w) = v).
    { intros n o w v Hn Nn Hv Hw. rewrite (G _ _ _ (zp_e820 (N.of_nat k) n o w Kl Hn) (page_whole_e820 (N.of_nat k) n ram line rd rs Nn)).
      unfold page_assignments. rewrite last_app, Hv. apply N.mod_small. exact Hw. }
    split; [|split].
    - replace (z + 0x2d0 + 20 * N.of_nat k) with (z + (0x2d0 + 20 * N.of_nat k + 0)) by lia.
      apply (E820 "addr"%string 0 8 x); [cbn; tauto|tauto|exact V1|exact Tx].
    - replace (z + 0x2d0 + 20 * N.of_nat k + 8) with (z + (0x2d0 + 20 * N.of_nat k + 8)) by lia.
      apply (E820 "size"%string 8 8 sz); [cbn; tauto|tauto|exact V2|exact Ts].
    - replace (z + 0x2d0 + 20 * N.of_nat k + 16) with (z + (0x2d0 + 20 * N.of_nat k + 16)) by lia.
      apply (E820 "type"%string 16 4 t); [cbn; tauto|tauto|exact V3|exact Tt]. }
  unfold view_zero_page. cbv zeta. rewrite F0, F1, F2, F3, F4, F5, F6, F7, F8. change (0 =? 0) with true. cbn iota.
  rewrite !split32 by assumption. unfold lenN at 1. rewrite Nat2N.id, Tab.
  rewrite (usable_typed ram T) by (unfold lenN in Ln; lia). rewrite (line_at_string m line s Ls Gs). reflexivity.
Qed.

Lemma string_in_place bld be t0 x0 ts m m1 m2 xs addr c : wf_mem m = true -> wf_mem m1 = true -> Forall task_typed (t0 :: ts) -> all_separate (t0 :: ts) ->
  perform bld be t0 m = (m1, x0) -> perform_all bld be ts m1 = (m2, xs) -> reported ts xs (LoadCmdline addr c) (Done (Ok tt)) ->
  exists s, as_cstring c = Ok s /\ guest_string m2 addr s.
Proof.
  intros Hw Hw1 Htt Hsep E H Hcl. inversion Htt as [|? ? _ Hts]; subst.
  destruct (cmdline_call_string _ _ _ _ _ _ _ _ Hw1 Hts H Hcl) as (s & Es & Hs). exists s. split; [exact Es|]. split; [|exact Hs].
  destruct Hcl as (i & I1 & I2).
  assert (Hall : perform_all bld be (t0 :: ts) m = (m2, x0 :: xs)) by (cbn [perform_all]; rewrite E, H; reflexivity).
  apply (C58_all_in_place bld be _ m m2 _ (LoadCmdline addr c) (Done (Ok tt)) [] addr (s ++ [x00]) [] Hw Htt Hsep Hall);
    [exists (S i); split; assumption|right; left; reflexivity|cbn [writes]; rewrite Es; reflexivity|intros q []].
Qed.
Lemma loaded_wf bld be t m m1 res : wf_mem m = true -> task_typed t -> perform bld be t m = (m1, Loaded (Ok res)) -> wf_mem m1 = true.
Proof. intros Hw Ht E. rewrite <- Hw. apply wf_mem_regions. apply (C56_success_writes _ _ _ _ _ _ Hw Ht E). left. eauto. Qed.

(** The VMM loads a bzImage, fills in a zero page (whatever was in it before, with a zero sentinel) from the returned header, its memory map,
    its ramdisk and the address of the command line, and performs any calls on separate areas in any order, among them the
    writing of the page and of the command line.  Then Linux has exactly that memory map, ramdisk and command line, and the kernel is in place. *)
Theorem C107_linux_boot : forall bld be off highmem r m m1 res h page z ts m2 xs line c ram rd rd_size,
  wf_mem m = true -> task_typed (LoadBz off highmem r) ->
  perform bld be (LoadBz off highmem r) m = (m1, Loaded (Ok res)) -> result_header res = Some h ->
  lenN page = 4096 -> uint_at page 0x1ef 1 = 0 ->
  map_typed ram -> 2 <= lenN ram <= 128 -> line < 2 ^ 64 -> rd < 2 ^ 64 -> rd_size < 2 ^ 64 ->
  Forall task_typed ts -> all_separate (LoadBz off highmem r :: ts) -> perform_all bld be ts m1 = (m2, xs) ->
  reported ts xs (WriteLinux (bp_new (linux_page page h ram line rd rd_size) z)) (Written (Ok tt)) ->
  reported ts xs (LoadCmdline line c) (Done (Ok tt)) ->
  holds_at m2 (kernel_load res) (payload (rd_data r)) /\
  exists s, as_cstring c = Ok s /\
    (lenN s < 2048 -> view_zero_page m2 z = Some (mkView ram (ramdisk_of 255 rd rd_size) (map n8 s))).
Proof.
  intros until rd_size. intros Hw Ht E Eh Lp Sen T Ln Hl Hrd Hrs Hts Hsep H Hzp Hcl.
  pose proof (loaded_wf _ _ _ _ _ _ Hw Ht E) as Hw1.
  assert (Htt : Forall task_typed (LoadBz off highmem r :: ts)) by (constructor; assumption).
  assert (Hall : perform_all bld be (LoadBz off highmem r :: ts) m = (m2, Loaded (Ok res) :: xs)) by (cbn [perform_all]; rewrite E, H; reflexivity).
  assert (Lh : lenN h = 123).
  { assert (Hbz : bz_runs be off highmem r m m1 (Ok res)).
    { destruct Ht as (T1 & T2 & T3). cbn [perform] in E. destruct (bz_load be off highmem r m) as [[r' m'] o] eqn:F. inversion E; subst.
      split; [exact T1|]. split; [exact T2|]. split; [exact Hw|]. split; [exact T3|]. eauto. }
    destruct (bz_ok_header _ _ _ _ _ _ _ Hbz) as (k & _ & _ & _ & _ & Er). rewrite Eh in Er. injection Er as ->.
    apply (with_code32_spec _ (kernel_load res) (header_got_len (rd_data r) k)). }
  assert (Hz : holds_at m2 z (linux_page page h ram line rd rd_size)).
  { destruct Hzp as (i & I1 & I2).
    apply (C58_all_in_place bld be _ m m2 _ (WriteLinux (bp_new (linux_page page h ram line rd rd_size) z)) (Written (Ok tt)) [] z _ [] Hw Htt Hsep Hall);
      [exists (S i); split; assumption|right; right; reflexivity|reflexivity|intros s []]. }
  split.
  - apply (C58_all_in_place bld be _ m m2 _ (LoadBz off highmem r) (Loaded (Ok res)) [] (kernel_load res) (payload (rd_data r)) [] Hw Htt Hsep Hall);
      [exists O; split; reflexivity|left; eauto|reflexivity|intros s []].
  - destruct (string_in_place _ _ _ _ _ _ _ _ _ _ _ Hw Hw1 Htt Hsep E H Hcl) as (s & Es & Gs). exists s. split; [exact Es|].
    intros Ls. exact (page_view m2 z page h ram line rd rd_size s Lp Lh Sen T Ln Hl Hrd Hrs Hz Gs Ls).
Qed.

(** With the calls that built the command line: a builder of at most 2048 bytes, parameters [ps], init arguments [is] and device requests
    [qs] accepted in this order. Linux has those parameters, gives those arguments to init, and creates those devices. *)
Lemma line_short bld cap c0 os s : cap <= 2048 -> cmdline_new cap = Ok c0 -> as_cstring (run_ops bld c0 os) = Ok s -> lenN s < 2048.
Proof.
  intros Hc E Es. assert (Tk : ctor_typed (New cap)) by (cbn [ctor_typed]; apply N.le_lt_trans with 2048; [exact Hc|reflexivity]).
  pose proof (capacity_respected bld (New cap) c0 os (s ++ [x00]) Tk E) as X. unfold cmdline_to_vec in X. rewrite Es in X.
  specialize (X eq_refl). unfold bytes_with_nul in X. rewrite lenN_app in X. change (lenN [x00]) with 1 in X. cbn [ctor_cap] in X. lia.
Qed.
Definition linux_has (v : linux_view) (ram : list (N * N * N)) (rd : option (N * N)) (ps : list param) (is : list text) (ds : list device) : Prop :=
  memory_map v = ram /\ ramdisk v = rd /\ kernel_reads (command_line v) = (ps, match args_text is with [] => None | i => Some i end) /\
  linux_devices (command_line v) = ds.

Theorem C107_linux_has : forall bld be off highmem r m m1 res h page z ts m2 xs line ram rd rd_size cap c0 os ps is qs,
  wf_mem m = true -> task_typed (LoadBz off highmem r) ->
  perform bld be (LoadBz off highmem r) m = (m1, Loaded (Ok res)) -> result_header res = Some h ->
  lenN page = 4096 -> uint_at page 0x1ef 1 = 0 ->
  map_typed ram -> 2 <= lenN ram <= 128 -> line < 2 ^ 64 -> rd < 2 ^ 64 -> rd_size < 2 ^ 64 ->
  cap <= 2048 -> cmdline_new cap = Ok c0 -> tells bld c0 os ps is (run_ops bld c0 os) -> adds bld c0 os qs (run_ops bld c0 os) ->
  Forall sensible qs -> ids_fit 0 qs ->
  Forall task_typed ts -> all_separate (LoadBz off highmem r :: ts) -> perform_all bld be ts m1 = (m2, xs) ->
  reported ts xs (WriteLinux (bp_new (linux_page page h ram line rd rd_size) z)) (Written (Ok tt)) ->
  reported ts xs (LoadCmdline line (run_ops bld c0 os)) (Done (Ok tt)) ->
  exists v, view_zero_page m2 z = Some v /\ linux_has v ram (ramdisk_of 255 rd rd_size) ps is (expected 0 qs).
Proof.
  intros until qs. intros Hw Ht E Eh Lp Sen T Ln Hl Hrd Hrs Hc Ec Te Ad Hs Hf Hts Hsep H Hzp Hcl.
  destruct (C107_linux_boot _ _ _ _ _ _ _ _ _ _ _ _ _ _ _ _ _ _ _ Hw Ht E Eh Lp Sen T Ln Hl Hrd Hrs Hts Hsep H Hzp Hcl) as (_ & s & Es & V).
  assert (Hc64 : cap < 2 ^ 64) by (apply N.le_lt_trans with 2048; [exact Hc|reflexivity]).
  eexists. split; [exact (V (line_short _ _ _ _ _ Hc Ec Es))|]. unfold linux_has. cbn [memory_map ramdisk command_line].
  split; [reflexivity|]. split; [reflexivity|].
  split; [exact (C76_kernel_sees_inserted_new bld cap c0 os ps is _ s Hc64 Ec Te Es)|exact (C106_devices bld cap c0 os qs _ s Hc64 Ec Ad Es Hs Hf)].
Qed.
