(** * Props_Loader: loading the command line, properties C18 and C19.

    [load_cmdline bld be m addr c = (m', o)]: the call ends with outcome [o] and memory [m'].
    [as_cstring c] is the serialised command line without its terminating NUL (see C08, C09). *)
From Verif Require Import Base Base_proofs Io Mem SpecMem Mem_proofs Text Cmdline SpecCmdline
  Cmdline_proofs Cmdline_proofs2 Cmdline_proofs3 Loader Props_Cmdline Demo_elf.

(** Everything [load_cmdline] can do. *)
Lemma load_cmdline_cases bld be m addr c m' o :
  wf_mem m = true -> load_cmdline bld be m addr c = (m', o) ->
  (exists e, as_cstring c = Err e /\ o = Err InvalidCommandLine /\ m' = m) \/
  (exists s, as_cstring c = Ok s /\
     ((two64 <= addr + lenN s \/ last_addr m < addr + lenN s) /\ o = Err CommandLineOverflow /\ m' = m \/
      addr + lenN s < two64 /\ addr + lenN s <= last_addr m /\
      write_slice be m (s ++ [x00]) addr = (m', match o with Ok _ => Ok tt | _ => Err tt end) /\
      (o = Ok tt \/ o = Err CommandLineCopy))).
Proof.
  intros Hw H. unfold load_cmdline in H.
  destruct (as_cstring c) as [s|e|p] eqn:Es.
  2:{ inversion H; subst. left. eauto. }
  2:{ exfalso. destruct (as_cstring_errors c) as (_ & _ & [H3|[H3|[b H3]]]); congruence. }
  right. exists s. split; [reflexivity|].
  unfold bytes_with_nul in H. unfold usub in H.
  assert (Hl : lenN (s ++ [x00]) = lenN s + 1) by (rewrite lenN_app; reflexivity).
  rewrite Hl in H. rewrite (proj2 (N.leb_le _ _)) in H by lia.
  replace (lenN s + 1 - 1) with (lenN s) in H by lia.
  unfold checked_add in H. destruct (N.ltb_spec (addr + lenN s) two64) as [Hlt|Hge].
  2:{ inversion H; subst. left. auto. }
  destruct (N.ltb_spec (last_addr m) (addr + lenN s)) as [Hla|Hla].
  { inversion H; subst. left. auto. }
  right. split; [exact Hlt|]. split; [exact Hla|].
  destruct (write_slice be m (s ++ [x00]) addr) as [m1 o1] eqn:Ew.
  pose proof (write_slice_frame _ _ _ _ _ _ Hw Ew) as (_ & [-> | ->]); inversion H; subst; auto.
Qed.

(** ** C18: on success exactly the terminated command line is written. *)
Theorem C18_load_cmdline_writes : forall bld be m addr c m',
  wf_mem m = true -> load_cmdline bld be m addr c = (m', Ok tt) ->
  exists s, as_cstring c = Ok s /\ ~ In x00 s /\
    mem_is_overlay m m' [(addr, s ++ [x00])] /\
    holds_at m' addr (s ++ [x00]) /\
    same_outside m m' (in_range addr (lenN s + 1)).
Proof.
  intros until m'. intros Hw H. apply load_cmdline_cases in H as [(e & _ & E & _)|(s & Es & [(_ & E & _)|(H1 & H2 & Ewr & _)])];
    [discriminate|discriminate| |exact Hw].
  exists s. apply write_slice_ok in Ewr as (Hr & Hp & _); [|exact Hw].
  split; [exact Es|]. split.
  { destruct (C08_one_nul c (s ++ [x00])) as (b & Eb & Hb).
    - unfold cmdline_to_vec. rewrite Es. reflexivity.
    - apply app_inj_tail in Eb as [-> _]. exact Hb. }
  split; [split; [exact Hr|exact Hp]|]. split; [eapply holds_at_put; exact Hp|].
  split; [exact Hr|]. intros x Hx. rewrite Hp. apply put_out. rewrite lenN_app. exact Hx.
Qed.

(** ** C19: it succeeds exactly when the command line fits; classification of the errors. *)
Theorem C19_load_cmdline_exact : forall bld be m addr c m' o,
  wf_mem m = true -> load_cmdline bld be m addr c = (m', o) ->
  (o = Ok tt <-> exists s, as_cstring c = Ok s /\ range_backed m addr (lenN s + 1)).
Proof.
  intros until o. intros Hw H. split.
  - intros ->. apply load_cmdline_cases in H as [(e & _ & E & _)|(s & Es & [(_ & E & _)|(H1 & H2 & Ewr & _)])];
      [discriminate|discriminate| |exact Hw].
    exists s. apply write_slice_ok in Ewr as (_ & _ & Hb); [|exact Hw]. split; [exact Es|].
    rewrite lenN_app in Hb. exact Hb.
  - intros (s & Es & Hb). apply load_cmdline_cases in H as [(e & E & _)|(s' & Es' & [(Hov & E & _)|(H1 & H2 & Ewr & Ho)])];
      [congruence| | |exact Hw]; assert (s' = s) by congruence; subst s'.
    + exfalso. assert (backed m (addr + lenN s)) as Hx by (apply Hb; lia).
      pose proof (last_addr_backed m _ Hx). pose proof (backed_bound m _ Hw Hx). lia.
    + destruct (write_slice_complete be m (s ++ [x00]) addr Hw) as (m2 & E2).
      * destruct s; discriminate.
      * rewrite lenN_app. exact Hb.
      * rewrite E2 in Ewr. destruct Ho as [-> | ->]; [reflexivity|]. discriminate.
Qed.

(** "Past the end of memory": no guest address is at or beyond the last byte of the command line. *)
Theorem C19_load_cmdline_errors : forall bld be m addr c m' o,
  wf_mem m = true -> regions m <> [] -> load_cmdline bld be m addr c = (m', o) ->
  (forall e, as_cstring c = Err e -> o = Err InvalidCommandLine /\ m' = m) /\
  (forall s, as_cstring c = Ok s ->
     ((forall x, backed m x -> x < addr + lenN s) -> o = Err CommandLineOverflow /\ m' = m) /\
     ((exists x, backed m x /\ addr + lenN s <= x) -> ~ range_backed m addr (lenN s + 1) ->
        o = Err CommandLineCopy /\ same_outside m m' (in_range addr (lenN s + 1)))).
Proof.
  intros until o. intros Hw Hne H. pose proof (proj1 (C19_load_cmdline_exact _ _ _ _ _ _ _ Hw H)) as Hex.
  apply load_cmdline_cases in H; [|exact Hw].
  destruct H as [(e0 & E0 & Eo & Em)|(s0 & Es0 & Hc)].
  { split; [auto|]. intros s Es. congruence. }
  split; [congruence|]. intros s Es. assert (s0 = s) by congruence. subst s0. split.
  - intros Hpast. destruct Hc as [(_ & Eo & Em)|(H1 & H2 & _)]; [auto|].
    exfalso. specialize (Hpast _ (last_addr_attained m Hne Hw)). lia.
  - intros (x & Hx & Hlex) Hnb. pose proof (last_addr_backed m x Hx). pose proof (backed_bound m x Hw Hx).
    destruct Hc as [([Hov|Hov] & _)|(H1 & H2 & Ewr & Ho)]; [lia|lia|].
    apply write_slice_frame in Ewr as (Hfr & _); [|exact Hw]. rewrite lenN_app in Hfr. change (lenN [x00]) with 1 in Hfr.
    split; [|exact Hfr]. destruct Ho as [-> | ->]; [|reflexivity]. exfalso. destruct (Hex eq_refl) as (s1 & E1 & Hb).
    apply Hnb. congruence.
Qed.

(** No outcome is a panic, in either build. *)
Theorem C19_load_cmdline_no_panic : forall bld be m addr c m' o p,
  wf_mem m = true -> load_cmdline bld be m addr c = (m', o) -> o <> Panic p.
Proof.
  intros until p. intros Hw H ->. apply load_cmdline_cases in H as [(e & _ & E & _)|(s & Es & [(_ & E & _)|(H1 & H2 & Ewr & [E|E])])]; discriminate || exact Hw.
Qed.

Definition hole_mem : gmem := mkMem [mkRegion 0 0x1000; mkRegion 0x1010 0x10] (fun _ => xff).
Example C18_applies : exists m',
  load_cmdline true TryAccess hole_mem 0x1013 (mkCmdline (txt "a=1") (txt "b") 20) = (m', Ok tt) /\
  peek m' 0x1012 13 = [xff; x61; x3d; x31; x20; x2d; x2d; x20; x62; x00; xff; xff; xff].
Proof. eexists. split; vm_compute; reflexivity. Qed.
Example C19_applies :
  (exists m', load_cmdline true TryAccess hole_mem 0xffd (mkCmdline (txt "a=1") [] 20) = (m', Err CommandLineCopy)) /\
  load_cmdline true TryAccess hole_mem 0x101d (mkCmdline (txt "a=1") [] 20) = (hole_mem, Err CommandLineOverflow) /\
  load_cmdline true TryAccess hole_mem (2 ^ 64 - 1) (mkCmdline (txt "a=1") [] 20) = (hole_mem, Err CommandLineOverflow) /\
  (exists m', load_cmdline true TryAccess hole_mem 0x101c (mkCmdline (txt "a=1") [] 20) = (m', Ok tt)) /\
  load_cmdline true TryAccess hole_mem 0 (mkCmdline [] (txt "a") 20) = (hole_mem, Err InvalidCommandLine).
Proof.
  split; [eexists; vm_compute; reflexivity|]. split; [vm_compute; reflexivity|]. split; [vm_compute; reflexivity|].
  split; [eexists; vm_compute; reflexivity|vm_compute; reflexivity].
Qed.
