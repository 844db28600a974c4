(** * Props_Endian: property C87.  The byte order of the host does not matter. *)
From Verif Require Import Base Base_proofs Io Mem SpecMem Layout SpecFile File_proofs Loader Pe SpecPe Pe_proofs SpecVmm
  Demo_elf Props_Elf Props_Pe Props_Vmm SpecDecide Props_Decide Endian.

Lemma be_dec_acc_spec l : forall acc, be_dec_acc acc l = acc * 256 ^ lenN l + be_dec_acc 0 l.
Proof.
  induction l as [|b l IH]; intros acc; cbn [be_dec_acc].
  - change (lenN (@nil byte)) with 0. rewrite N.pow_0_r. lia.
  - rewrite (IH (acc * 256 + n8 b)), (IH (0 * 256 + n8 b)), lenN_cons, N.pow_add_r, N.pow_1_r. lia.
Qed.
Lemma be_dec_app l b : be_dec_acc 0 (l ++ [b]) = be_dec_acc 0 l * 256 + n8 b.
Proof.
  assert (H : forall acc, be_dec_acc acc (l ++ [b]) = be_dec_acc acc l * 256 + n8 b).
  { induction l as [|x l IH]; intros acc; cbn [app be_dec_acc]; [reflexivity|apply IH]. }
  apply H.
Qed.
(** Swapping what a big-endian host sees gives what a little-endian one sees. *)
Lemma swap_be l : swap_bytes (length l) (be_dec_acc 0 l) = le_dec l.
Proof.
  induction l as [|b l IH] using rev_ind; [reflexivity|].
  rewrite app_length, be_dec_app. cbn [length]. rewrite Nat.add_1_r. cbn [swap_bytes].
  pose proof (n8_lt b) as Hb.
  replace ((be_dec_acc 0 l * 256 + n8 b) mod 256) with (n8 b) by (rewrite N.add_comm, N.mod_add by lia; symmetry; now apply N.mod_small).
  replace ((be_dec_acc 0 l * 256 + n8 b) / 256) with (be_dec_acc 0 l) by (rewrite N.div_add_l by lia; rewrite (N.div_small (n8 b)) by assumption; lia).
  rewrite IH, le_dec_app. unfold lenN. cbn [le_dec]. lia.
Qed.
Lemma from_le_native e k l : length l = k -> from_le e k (native_dec e l) = le_dec l.
Proof. intros <-. destruct e; [reflexivity|apply swap_be]. Qed.

Lemma native_get_le e a f k h o t : locate (image_header a) [Fld f] = Some (o, t) -> N.to_nat (size t) = k -> o + size t <= lenN h ->
  from_le e k (native_get e a f h) = img_get a f h.
Proof.
  intros E Hk Hl. unfold native_get, img_get, get. rewrite E. apply from_le_native.
  pose proof (lenN_slice h o (size t)) as L. unfold lenN in *. lia.
Qed.

Lemma emagic_le e a h : lenN h = 64 -> emagic_ok e a h = magic_ok a h.
Proof.
  intros Hl. destruct a; cbn [emagic_ok magic_ok].
  - rewrite (native_get_le e Aarch64 "magic" 4 h 56 U32); [reflexivity|reflexivity|reflexivity|rewrite Hl; vm_compute; discriminate].
  - rewrite (native_get_le e Riscv64 "magic2" 4 h 56 U32); [reflexivity|reflexivity|reflexivity|rewrite Hl; vm_compute; discriminate].
Qed.
Lemma etext_le e a h : lenN h = 64 -> etext_offset e a h = text_offset a h.
Proof.
  intros Hl. destruct a; cbn [etext_offset text_offset].
  - rewrite (native_get_le e Aarch64 "image_size" 8 h 16 U64); [|reflexivity|reflexivity|rewrite Hl; vm_compute; discriminate].
    rewrite (native_get_le e Aarch64 "text_offset" 8 h 8 U64); [reflexivity|reflexivity|reflexivity|rewrite Hl; vm_compute; discriminate].
  - rewrite (native_get_le e Riscv64 "text_offset" 8 h 8 U64); [reflexivity|reflexivity|reflexivity|rewrite Hl; vm_compute; discriminate].
Qed.

Lemma lbind_cong {A B} (x : L A) (f g : A -> L B) r m :
  (forall a r' m', x r m = (r', m', Ok a) -> f a r' m' = g a r' m') -> lbind x f r m = lbind x g r m.
Proof. intros H. unfold lbind. destruct (x r m) as [[r' m'] [a|e|p]] eqn:E; [now apply H|reflexivity|reflexivity]. Qed.

(** ** C87: report, memory and source are those of a little-endian host, for every source (also a failing one), *)
Theorem C87_byte_order_irrelevant : forall e a be off highmem r m,
  epe_load e a be off highmem r m = pe_load a be off highmem r m.
Proof.
  intros e a be off highmem r m. unfold epe_load, pe_load.
  apply lbind_cong. intros n r1 m1 _. apply lbind_cong. intros p r2 m2 _. apply lbind_cong. intros h r3 m3 E.
  assert (Hl : lenN h = 64).
  { unfold lio in E. destruct (read_exact_cases r2 (size (image_header a))) as [(r4 & E4 & _)|(E4 & Hin)]; rewrite E4 in E; [discriminate E|].
    injection E as _ _ <-. rewrite lenN_slice. destruct a; change (size (image_header _)) with 64 in *; lia. }
  rewrite (emagic_le e a _ Hl), (etext_le e a _ Hl). reflexivity.
Qed.

(** so that on either host the report is the one the rules read off the little-endian header fields of the file. *)
Theorem C87_rules_on_every_host : forall e a be off highmem r m r' m' o,
  wf_mem m = true -> wf_reader r -> ~ io_trouble be r -> epe_load e a be off highmem r m = (r', m', o) ->
  forall y, pe_says a (rd_data r) off m y <-> y = o.
Proof.
  intros e a be off highmem r m r' m' o Hw Hr Ht H y. rewrite C87_byte_order_irrelevant in H.
  assert (P : perform true be (LoadPe a off highmem r) m = (m', Loaded o)) by (cbn [perform]; now rewrite H).
  pose proof (C78_report_iff true be (LoadPe a off highmem r) m m' (Loaded o) Hw Hr Ht P (Loaded y)) as X. split.
  - intros Y. assert (Z : Loaded y = Loaded o) by (apply X; now apply say_pe). now injection Z.
  - intros ->. assert (Z : says be m (LoadPe a off highmem r) (Loaded o)) by now apply X. inversion Z; subst. assumption.
Qed.

(** A big-endian host sees other numbers in the header, and loads the image all the same. *)
Example C87_applies : exists r' m',
  native_get Big Aarch64 "magic" (slice (demo_pe Aarch64 0x80 4096) 0 64) = 0x41524d64 /\
  native_get Big Aarch64 "text_offset" (slice (demo_pe Aarch64 0x80 4096) 0 64) = 0x8000000000000000 /\
  wf_mem pe_mem = true /\ wf_reader (plain_reader (demo_pe Aarch64 0x80 4096)) /\ ~ io_trouble TryAccess (plain_reader (demo_pe Aarch64 0x80 4096)) /\
  epe_load Big Aarch64 TryAccess (Some 0x200000) None (plain_reader (demo_pe Aarch64 0x80 4096)) pe_mem =
    (r', m', Ok (mkResult 0x200080 0x2000c3 None PvhEntryIgnored)) /\
  peek m' 0x2000bf 6 = [x00; x11; x12; x13; xff; xff].
Proof.
  eexists _, _. split; [vm_compute; reflexivity|]. split; [vm_compute; reflexivity|]. split; [reflexivity|].
  split; [apply plain_wf; reflexivity|]. split; [intros [(i & E)|[(i & E)|(E & _)]]; discriminate E|].
  split; vm_compute; reflexivity.
Qed.
