(** * Props_Kernel: the kernel sees the parameters that were inserted (C76).

    [kernel_reads] (SpecKernel.v) is Linux's reader of the command line: the parameters, and the text after a lone "--". *)
From Verif Require Import Base Base_proofs Io Mem SpecMem Mem_proofs Text Cmdline SpecCmdline Text_proofs Cmdline_proofs Cmdline_proofs2
  Cmdline_proofs3 Loader Props_Cmdline Props_Loader SpecKernel Kernel_proofs.
Local Open Scope list_scope.

(** From any constructor and through any history, the kernel reads the parameters of the accepted calls, in order, each with the
    value given (without its enclosing quotes), after those of the initial text, and hands on the init arguments. *)
Theorem C76_kernel_sees_inserted : forall bld k c0 boot0 init0 ps0 os ps is c' s,
  ctor_typed k -> run_ctor k = Ok c0 -> ctor_parts k boot0 init0 -> stands_alone (seen boot0) ps0 ->
  tells bld c0 os ps is c' -> as_cstring c' = Ok s ->
  kernel_reads (map n8 s) =
    (ps0 ++ ps, match args_text (init0 :: is) with [] => None | i => Some (seen i) end).
Proof.
  intros bld k c0 boot0 init0 ps0 os ps is c' s Tk Ec Pc A T E.
  destruct (ctor_inv k c0 Tk Ec) as [I _]. pose proof (ctor_parts_ok k c0 Tk Ec) as Pc0.
  assert (boot0 = boot_args c0 /\ init0 = init_args c0 /\ unblank_head init0) as (-> & -> & U).
  { destruct k as [cap|raw cap]; cbn [ctor_parts] in *.
    - destruct Pc as [-> ->], Pc0 as [-> ->]. split; [reflexivity|]. split; [reflexivity|]. intros ? ? ?. discriminate.
    - destruct (parsed_parts_unique _ _ _ _ _ Pc Pc0) as [-> ->]. split; [reflexivity|]. split; [reflexivity|].
      destruct Pc as [(i & _ & _ & (l & r & _ & _ & _ & H & _))|(_ & _ & ->)]; [exact H|intros ? ? ?; discriminate]. }
  destruct (tells_alone _ _ _ _ _ _ T ps0 I A U) as (A' & Ei & U' & _).
  rewrite as_cstring_spec in E. apply serialised_ok in E as (-> & _ & _).
  rewrite <- Ei. etransitivity; [exact (reads_full (boot_args c') (init_args c') (ps0 ++ ps) A' U')|].
  unfold tail_of. destruct (init_args c'); reflexivity.
Qed.

(** For a command line built from nothing. *)
Theorem C76_kernel_sees_inserted_new : forall bld cap c0 os ps is c' s,
  cap < 2 ^ 64 -> cmdline_new cap = Ok c0 -> tells bld c0 os ps is c' -> as_cstring c' = Ok s ->
  kernel_reads (map n8 s) = (ps, match args_text is with [] => None | i => Some i end).
Proof.
  intros bld cap c0 os ps is c' s Tk Ec T E.
  rewrite (C76_kernel_sees_inserted bld (New cap) c0 [] [] [] os ps is c' s Tk Ec (conj eq_refl eq_refl) alone_nil T E).
  rewrite args_text_nil_cons. f_equal.
  destruct (new_inv cap c0 Tk Ec) as (I & _ & B0 & I0).
  destruct (tells_alone _ _ _ _ _ _ T [] I) as (_ & Ei & _ & R); [rewrite B0; exact alone_nil|rewrite I0; intros ? ? ?; discriminate|].
  destruct (printable_history bld os c0 I) as [_ P]; [rewrite B0; constructor|rewrite I0; constructor|].
  rewrite R, Ei, I0, args_text_nil_cons in P. destruct (args_text is); [reflexivity|]. rewrite (seen_printable _ P). reflexivity.
Qed.

(** Every history of calls with non-empty keys and no stray quotes is of that kind, whichever of its calls are rejected. *)
Theorem C76_every_history : forall bld k c0 os,
  ctor_typed k -> run_ctor k = Ok c0 -> Forall well_behaved os -> exists ps is, tells bld c0 os ps is (run_ops bld c0 os).
Proof. intros bld k c0 os Tk Ec W. apply tells_exists; [apply (ctor_inv k c0 Tk Ec)|exact W]. Qed.

(** A word on its own is a parameter without value; a blank text contributes nothing. *)
Theorem C76_word : forall w, w <> [] -> Forall printable w -> ~ In 32 w -> ~ In 34 w -> ~ In 61 w -> w <> txt "--" ->
  stands_alone w [(w, None)].
Proof. intros w N P S Q E D. apply word_alone; try assumption. intro H. apply E. destruct w; [exact H|right; exact H]. Qed.
Theorem C76_blank : stands_alone [] [].
Proof. exact alone_nil. Qed.
(** Texts that stand alone can be put next to each other in one [insert_str]. *)
Theorem C76_words : forall a b ps qs, stands_alone a ps -> stands_alone b qs -> stands_alone (a ++ txt " " ++ b) (ps ++ qs).
Proof. exact alone_add. Qed.

(** Up to guest memory: the kernel that is given [addr] reads them there. *)
Theorem C76_kernel_sees_in_memory : forall bld be cap c0 os ps is c' m addr m',
  cap < 2 ^ 64 -> cmdline_new cap = Ok c0 -> tells bld c0 os ps is c' ->
  wf_mem m = true -> load_cmdline bld be m addr c' = (m', Ok tt) ->
  exists s, holds_at m' addr (s ++ [x00]) /\ ~ In x00 s /\
    kernel_reads (map n8 s) = (ps, match args_text is with [] => None | i => Some i end).
Proof.
  intros bld be cap c0 os ps is c' m addr m' Tk Ec T W L.
  destruct (C18_load_cmdline_writes bld be m addr c' m' W L) as (s & E & Z & _ & H & _).
  exists s. split; [exact H|]. split; [exact Z|]. exact (C76_kernel_sees_inserted_new bld cap c0 os ps is c' s Tk Ec T E).
Qed.

(** ** Cases *)
Definition q (s : string) : text := [34] ++ txt s ++ [34].
Definition demo_ops : list op :=
  [OpInsert (txt "root") (txt "/dev/vda=1"); OpInsert (txt "bad key") (txt "x"); OpInit (txt " -- -v "); OpStr (txt "  quiet ro=1 ");
   OpInsert (txt "opt") (q "a -- b c=d"); OpVirtio 4096 0xd0000000 5 (Some 1); OpMultiple (txt "console") [txt "tty0"; txt "ttyS0"];
   OpInit (txt "single"); OpStr (txt "  ")].
Example C76_applies : forall bld, exists c0 c' s,
  cmdline_new 200 = Ok c0 /\ Forall well_behaved demo_ops /\ as_cstring c' = Ok s /\
  tells bld c0 demo_ops
    [(txt "root", Some (txt "/dev/vda=1")); (txt "quiet", None); (txt "ro", Some (txt "1")); (txt "opt", Some (txt "a -- b c=d"));
     (txt "virtio_mmio.device", Some (txt "4K@0xd0000000:5:1")); (txt "console", Some (txt "tty0,ttyS0"))]
    [txt "-- -v"; txt "single"] c' /\
  kernel_reads (map n8 s) =
    ([(txt "root", Some (txt "/dev/vda=1")); (txt "quiet", None); (txt "ro", Some (txt "1")); (txt "opt", Some (txt "a -- b c=d"));
     (txt "virtio_mmio.device", Some (txt "4K@0xd0000000:5:1")); (txt "console", Some (txt "tty0,ttyS0"))],
     Some (txt "-- -v single")).
Proof.
  intro bld. exists (mkCmdline [] [] 200). eexists. eexists.
  assert (NI : forall (x : N) l, count_occ N.eq_dec l x = O -> ~ In x l) by (intros x l; apply count_occ_not_In).
  assert (T3 : trimmed_of (txt " -- -v ") (txt "-- -v")) by (apply trimmed_iff; reflexivity).
  assert (T4 : trimmed_of (txt "  quiet ro=1 ") (txt "quiet ro=1")) by (apply trimmed_iff; reflexivity).
  assert (T8 : trimmed_of (txt "single") (txt "single")) by (apply trimmed_iff; reflexivity).
  assert (T9 : trimmed_of (txt "  ") []) by (apply trimmed_iff; reflexivity).
  assert (A4 : stands_alone (txt "quiet ro=1") [(txt "quiet", None); (txt "ro", Some (txt "1"))]) by (split; vm_compute; reflexivity).
  assert (B1 : bare (txt "/dev/vda=1") (txt "/dev/vda=1")) by (constructor; apply NI; reflexivity).
  assert (B5 : bare (q "a -- b c=d") (txt "a -- b c=d")) by (apply (bare_quoted (txt "a -- b c=d")); apply NI; reflexivity).
  assert (V7 : forall v, In v [txt "tty0"; txt "ttyS0"] -> ~ In 34 v) by (intros v [<-|[<-|[]]]; apply NI; reflexivity).
  split; [reflexivity|]. split.
  { unfold demo_ops. repeat apply Forall_cons; try apply Forall_nil; try exact I; cbn [well_behaved].
    - split; [discriminate|]. split; [apply NI; reflexivity|]. eexists; exact B1.
    - split; [discriminate|]. split; [apply NI; reflexivity|]. exists (txt "x"). constructor. apply NI. reflexivity.
    - exists (txt "quiet ro=1"). eexists. split; [exact T4|exact A4].
    - split; [discriminate|]. split; [apply NI; reflexivity|]. eexists; exact B5.
    - split; [discriminate|]. split; [apply NI; reflexivity|]. exact V7.
    - exists [], []. split; [exact T9|exact alone_nil]. }
  split; [|split].
  2:{ unfold demo_ops.
    eapply (te_boot bld _ _ _ [_]); [vm_compute; reflexivity|apply co_insert; [discriminate|apply NI; reflexivity|exact B1]|].
    eapply te_rejected; [vm_compute; reflexivity|].
    eapply te_init; [vm_compute; reflexivity|exact T3|].
    eapply (te_boot bld _ _ _ [_; _]); [vm_compute; reflexivity|eapply co_str; [exact T4|exact A4]|].
    eapply (te_boot bld _ _ _ [_]); [vm_compute; reflexivity|apply co_insert; [discriminate|apply NI; reflexivity|exact B5]|].
    eapply (te_boot bld _ _ _ [_]); [vm_compute; reflexivity|apply co_virtio; exact (device_argument_ok 4096 0xd0000000 5 (Some 1))|].
    eapply (te_boot bld _ _ _ [_]); [vm_compute; reflexivity|apply (co_multiple (txt "console") [txt "tty0"; txt "ttyS0"]); [discriminate|apply NI; reflexivity|exact V7]|].
    eapply te_init; [vm_compute; reflexivity|exact T8|].
    eapply (te_boot bld _ _ _ []); [vm_compute; reflexivity|eapply co_str; [exact T9|exact alone_nil]|].
    apply te_done. }
  - vm_compute. reflexivity.
  - vm_compute. reflexivity.
Qed.

(** What the conditions exclude is accepted by the builder and read differently by the kernel. *)
Definition kernel_after (os : list op) : option (list param * option text) :=
  match cmdline_new 100 with
  | Ok c0 => match as_cstring (run_ops true c0 os) with Ok s => Some (kernel_reads (map n8 s)) | _ => None end
  | _ => None
  end.
(** A value with one double quote swallows the next parameter. *)
Example C76_stray_quote :
  snd (insert true (mkCmdline [] [] 100) (txt "a") (34 :: txt "x")) = Ok tt /\
  kernel_after [OpInsert (txt "a") (34 :: txt "x"); OpInsert (txt "b") (txt "c")] = Some ([(txt "a", Some (txt "x b=c"))], None).
Proof. vm_compute. auto. Qed.
(** An empty key is accepted; the kernel sees a parameter "=v" without value. *)
Example C76_empty_key : kernel_after [OpInsert [] (txt "v")] = Some ([(txt "=v", None)], None).
Proof. vm_compute. reflexivity. Qed.
(** Quotes in a key are accepted; the kernel drops a leading one and looks for the closing one in what follows. *)
Example C76_quote_in_key :
  kernel_after [OpInsert (34 :: txt "a") (txt "b"); OpStr (txt "c")] = Some ([(txt "a", Some (txt "b c"))], None).
Proof. vm_compute. reflexivity. Qed.
(** Quoted values of [insert_multiple]: the quotes inside the list stay, those at its ends go. *)
Example C76_multiple_quotes :
  kernel_after [OpMultiple (txt "k") [q "a"; q "b"]] = Some ([(txt "k", Some (txt "a" ++ [34] ++ txt "," ++ [34] ++ txt "b"))], None).
Proof. vm_compute. reflexivity. Qed.
(** [insert_str("--")] turns the following boot arguments into init arguments. *)
Example C76_lone_dashes :
  kernel_after [OpStr (txt "a"); OpStr (txt "--"); OpInsert (txt "b") (txt "c")] = Some ([(txt "a", None)], Some (txt "b=c")).
Proof. vm_compute. reflexivity. Qed.
(** The kernel also stops at a quoted "--", where [try_from] does not split. *)
Example C76_quoted_dashes :
  cmdline_try_from (txt "a " ++ q "--" ++ txt " b -- c") 100 = Ok (mkCmdline (txt "a " ++ q "--" ++ txt " b") (txt "c") 100) /\
  kernel_reads (txt "a " ++ q "--" ++ txt " b -- c") = ([(txt "a", None)], Some (txt "b -- c")).
Proof. vm_compute. auto. Qed.

(** ** C77: parsing and serialising is invisible to the kernel. *)
Theorem C77_parsing_invisible : forall raw cap c s,
  cap < 2 ^ 64 -> lenN (utf8 raw) < 2 ^ 63 -> Forall (fun ch => ch < 128) raw -> quotes_balanced raw ->
  cmdline_try_from raw cap = Ok c -> as_cstring c = Ok s ->
  kernel_view (map n8 s) = kernel_view (map n8 (utf8 raw)).
Proof.
  intros raw cap c s Hc Hl A B E S. destruct (C10_split raw cap c Hc Hl E) as [P _].
  rewrite as_cstring_spec in S. apply serialised_ok in S as (-> & _ & _). exact (parsed_view raw _ _ A B P).
Qed.

Definition spread : text := [9] ++ txt " a=" ++ q "x  -- y" ++ txt "   b  --   i   j  " ++ [10].
Example C77_applies :
  cmdline_try_from spread 40 = Ok (mkCmdline (txt "a=" ++ q "x  -- y" ++ txt "   b") (txt "i   j") 40) /\
  Forall (fun ch => ch < 128) spread /\ quotes_balanced spread /\
  kernel_view (map n8 (utf8 spread)) = ([(txt "a", Some (txt "x  -- y")); (txt "b", None)], [(txt "i", None); (txt "j", None)]).
Proof.
  split; [vm_compute; reflexivity|]. split; [|split; vm_compute; reflexivity]. apply Forall_forall. intros x H.
  assert (G : forallb (fun ch => ch <? 128) spread = true) by (vm_compute; reflexivity).
  rewrite forallb_forall in G. apply N.ltb_lt. exact (G x H).
Qed.

(** Needed: balanced quotes (blanks at the end of an open quotation are lost) and ASCII (Linux takes the byte 0xa0 inside a
    character for a blank, and [try_from] drops exotic white space that Linux would keep). *)
Example C77_open_quote :
  cmdline_try_from (txt "a=" ++ [34] ++ txt "x  ") 40 = Ok (mkCmdline (txt "a=" ++ [34] ++ txt "x") [] 40) /\
  kernel_view (txt "a=" ++ [34] ++ txt "x  ") = ([(txt "a", Some (txt "x  "))], []) /\
  kernel_view (txt "a=" ++ [34] ++ txt "x") = ([(txt "a", Some (txt "x"))], []).
Proof. vm_compute. auto. Qed.
Example C77_exotic_space :
  cmdline_try_from (txt "a" ++ [12288]) 40 = Ok (mkCmdline (txt "a") [] 40) /\
  kernel_view (map n8 (utf8 (txt "a" ++ [12288]))) = ([(txt "a" ++ [227; 128; 128], None)], []).
Proof. vm_compute. auto. Qed.
