(** * Props_Texts: the exact wording of errors (C124). *)
From Verif Require Import Base Base_proofs Layout Text Cmdline Loader Elf BootParams Display DebugText SpecTexts.
Local Open Scope list_scope.

(** ** C124: every kernel loader error is in the table, and formatting it gives the text of its row,
    so does formatting what [source()] returns. *)
Theorem C124_loader_texts :
  (forall e, exists d s src, In (e, d, s, src) loader_texts) /\
  (forall e d s src, In (e, d, s, src) loader_texts ->
     debug_lerror e = txt d /\ lerror_display e = txt s /\ lerror_source e = option_map txt src).
Proof.
  split.
  - intros e. assert (H : In e (map (fun r => fst (fst (fst r))) loader_texts)).
    { cbv [map loader_texts fst]. destruct e as [e|e|e| | | | |]; try destruct e; repeat (first [left; reflexivity|right]). }
    apply in_map_iff in H as ([[[e' d] s] src] & E & H). cbn in E. subst e'. eauto.
  - assert (F : Forall (fun r => let '(e, d, s, src) := r in debug_lerror e = txt d /\ lerror_display e = txt s /\ lerror_source e = option_map txt src) loader_texts)
      by (unfold loader_texts; repeat (apply Forall_cons; [split; [|split]; vm_compute; reflexivity|]); apply Forall_nil).
    intros e d s src H. rewrite Forall_forall in F. exact (F _ H).
Qed.

Theorem C124_boot_texts :
  (forall e, exists d s src, In (e, d, s, src) boot_texts) /\
  (forall e d s src, In (e, d, s, src) boot_texts ->
     debug_berror e = txt d /\ berror_display e = txt s /\ berror_source e = option_map txt src).
Proof.
  split.
  - intros e. assert (H : In e (map (fun r => fst (fst (fst r))) boot_texts)).
    { cbv [map boot_texts fst]. destruct e as [e|e|e| | |]; try destruct e; repeat (first [left; reflexivity|right]). }
    apply in_map_iff in H as ([[[e' d] s] src] & E & H). cbn in E. subst e'. eauto.
  - assert (F : Forall (fun r => let '(e, d, s, src) := r in debug_berror e = txt d /\ berror_display e = txt s /\ berror_source e = option_map txt src) boot_texts)
      by (unfold boot_texts; repeat (apply Forall_cons; [split; [|split]; vm_compute; reflexivity|]); apply Forall_nil).
    intros e d s src H. rewrite Forall_forall in F. exact (F _ H).
Qed.

(** Command line errors: as the table says, for every table of printable characters; a missing value
    names the key, as it is and, with [{:?}], as a string literal. *)
Theorem C124_cmdline_texts : forall pr,
  (forall e, (exists k, e = MissingVal k) \/ (exists d s, In (e, d, s) cmdline_texts)) /\
  (forall e d s, In (e, d, s) cmdline_texts -> debug_cerror pr e = txt d /\ cerror_display e = txt s) /\
  (forall k, debug_cerror pr (MissingVal k) = txt "MissingVal(" ++ debug_str pr k ++ txt ")" /\
             cerror_display (MissingVal k) = txt "Missing value for key " ++ k ++ txt ".").
Proof.
  intros pr. split; [|split].
  - intros e. assert (H : (exists k, e = MissingVal k) \/ In e (map (fun r => fst (fst r)) cmdline_texts)).
    { destruct e; try (left; eexists; reflexivity); right; cbn; repeat (first [left; reflexivity|right]). }
    destruct H as [H|H]; [now left|right]. apply in_map_iff in H as ([[e' d] s] & E & H). cbn in E. subst e'. eauto.
  - intros e d s H. unfold cmdline_texts in H.
    repeat (destruct H as [H|H]; [injection H as <- <- <-; split; vm_compute; reflexivity|]). destruct H.
  - intros k. split; reflexivity.
Qed.

(** The PVH capability. *)
Theorem C124_capability_texts : forall a,
  pvh_cap_display (PvhEntryPresent a) = txt "PVH entry point present at guest address: 0x" ++ fmt_hex a /\
  pvh_cap_display PvhEntryNotPresent = txt "PVH entry point not present" /\
  pvh_cap_display PvhEntryIgnored = txt "PVH entry point ignored" /\
  debug_pvh_cap (PvhEntryPresent a) = txt "PvhEntryPresent(GuestAddress(" ++ fmt_dec a ++ txt "))" /\
  debug_pvh_cap PvhEntryNotPresent = txt "PvhEntryNotPresent" /\ debug_pvh_cap PvhEntryIgnored = txt "PvhEntryIgnored".
Proof.
  intros a. repeat split; try reflexivity. cbn [debug_pvh_cap]. unfold debug_address. rewrite <- !app_assoc. reflexivity.
Qed.

(** In the [{:?}] output of a structure every field that is a structure is announced with its type. *)
Theorem C124_structure_names : forall f t, In (f, t) structure_fields -> field_type_name f = txt t.
Proof.
  intros f t H. unfold structure_fields in H.
  repeat (destruct H as [H|H]; [injection H as <- <-; vm_compute; reflexivity|]). destruct H.
Qed.

(** A string literal: printable ASCII other than the quote and the backslash is shown as it is, between quotes. *)
Theorem C124_literals : forall pr s, (forall c, In c s -> 32 <= c <= 126 /\ c <> 34 /\ c <> 92) -> debug_str pr s = [34] ++ s ++ [34].
Proof.
  intros pr s H. unfold debug_str. do 2 f_equal. induction s as [|c s IH]; [reflexivity|]. cbn [flat_map].
  rewrite IH by (intros d Hd; apply H; now right). destruct (H c (or_introl eq_refl)) as ((A & B) & C & D).
  change (c :: s) with ([c] ++ s). f_equal. unfold escape_char.
  repeat match goal with |- context [c =? ?k] => replace (c =? k) with false by (symmetry; apply N.eqb_neq; lia) end.
  replace (c <? 32) with false by (symmetry; apply N.ltb_ge; lia). replace (c <? 127) with true by (symmetry; apply N.ltb_lt; lia). reflexivity.
Qed.

(** Every other character of ASCII is shown by an escape: quote, backslash, tab, line feed, carriage
    return and NUL by one letter, the others by their number. *)
Theorem C124_escapes : forall pr,
  debug_str pr [34; 92; 9; 10; 13; 0] = [34] ++ txt "\" ++ [34] ++ txt "\\\t\n\r\0" ++ [34] /\
  (forall c, c < 32 \/ c = 127 -> c <> 0 -> c <> 9 -> c <> 10 -> c <> 13 ->
     debug_str pr [c] = [34] ++ txt "\u{" ++ fmt_hex c ++ txt "}" ++ [34]).
Proof.
  intros pr. split; [reflexivity|]. intros c H H0 H9 H10 H13.
  unfold debug_str. cbn [flat_map]. rewrite app_nil_r. unfold escape_char.
  assert (H34 : c <> 34) by lia. assert (H92 : c <> 92) by lia.
  rewrite (proj2 (N.eqb_neq c 0)), (proj2 (N.eqb_neq c 9)), (proj2 (N.eqb_neq c 10)), (proj2 (N.eqb_neq c 13)),
    (proj2 (N.eqb_neq c 34)), (proj2 (N.eqb_neq c 92)) by assumption.
  destruct H as [H|H].
  - rewrite (proj2 (N.ltb_lt c 32) H). unfold escape_unicode. rewrite <- !app_assoc. reflexivity.
  - subst c. reflexivity.
Qed.

(** A command line and a load result, whatever they hold. *)
Theorem C124_cmdline_shown : forall pr c,
  debug_cmdline pr c = txt "Cmdline { boot_args: " ++ debug_str pr (boot_args c) ++ txt ", init_args: " ++ debug_str pr (init_args c) ++
    txt ", capacity: " ++ fmt_dec (capacity c) ++ txt " }".
Proof. reflexivity. Qed.

Theorem C124_result_shown : forall load end_ cap,
  debug_result (mkResult load end_ None cap) =
    txt "KernelLoaderResult { kernel_load: GuestAddress(" ++ fmt_dec load ++ txt "), kernel_end: " ++ fmt_dec end_ ++
    txt ", setup_header: None, pvh_boot_cap: " ++ debug_pvh_cap cap ++ txt " }".
Proof. intros load end_ cap. unfold debug_result. cbn [kernel_load kernel_end result_header pvh_boot_cap]. unfold debug_address. rewrite <- !app_assoc. reflexivity. Qed.

(** A structure: for example a module of the PVH start info, whatever its fields; and an array. *)
Theorem C124_structure_shown : forall paddr sz cmd rsv, paddr < 2 ^ 64 -> sz < 2 ^ 64 -> cmd < 2 ^ 64 -> rsv < 2 ^ 64 ->
  debug_ty field_type_name (txt "hvm_modlist_entry") hvm_modlist_entry (le_enc 8 paddr ++ le_enc 8 sz ++ le_enc 8 cmd ++ le_enc 8 rsv) =
  txt "hvm_modlist_entry { paddr: " ++ fmt_dec paddr ++ txt ", size: " ++ fmt_dec sz ++ txt ", cmdline_paddr: " ++ fmt_dec cmd ++
  txt ", reserved: " ++ fmt_dec rsv ++ txt " }".
Proof.
  intros paddr sz cmd rsv H1 H2 H3 H4.
  pose proof (lenN_le_enc 8 paddr) as L1. pose proof (lenN_le_enc 8 sz) as L2. pose proof (lenN_le_enc 8 cmd) as L3. pose proof (lenN_le_enc 8 rsv) as L4.
  change (N.of_nat 8) with 8 in *.
  set (b := le_enc 8 paddr ++ le_enc 8 sz ++ le_enc 8 cmd ++ le_enc 8 rsv).
  assert (E0 : le_dec (slice b 0 8) = paddr).
  { unfold b. replace (slice _ 0 8) with (slice ([] ++ le_enc 8 paddr ++ (le_enc 8 sz ++ le_enc 8 cmd ++ le_enc 8 rsv)) (lenN (@nil byte)) (lenN (le_enc 8 paddr)))
      by (rewrite L1; reflexivity). rewrite slice_app_mid. now apply le_dec_enc_small. }
  assert (E1 : le_dec (slice b 8 8) = sz).
  { unfold b. replace (slice _ 8 8) with (slice (le_enc 8 paddr ++ le_enc 8 sz ++ (le_enc 8 cmd ++ le_enc 8 rsv)) (lenN (le_enc 8 paddr)) (lenN (le_enc 8 sz)))
      by (rewrite L1, L2; reflexivity). rewrite slice_app_mid. now apply le_dec_enc_small. }
  assert (E2 : le_dec (slice b 16 8) = cmd).
  { unfold b. replace (slice _ 16 8) with (slice ((le_enc 8 paddr ++ le_enc 8 sz) ++ le_enc 8 cmd ++ le_enc 8 rsv) (lenN (le_enc 8 paddr ++ le_enc 8 sz)) (lenN (le_enc 8 cmd)))
      by (rewrite lenN_app, L1, L2, L3, <- app_assoc; reflexivity). rewrite slice_app_mid. now apply le_dec_enc_small. }
  assert (E3 : le_dec (slice b 24 8) = rsv).
  { unfold b. replace (slice _ 24 8) with (slice ((le_enc 8 paddr ++ le_enc 8 sz ++ le_enc 8 cmd) ++ le_enc 8 rsv ++ []) (lenN (le_enc 8 paddr ++ le_enc 8 sz ++ le_enc 8 cmd)) (lenN (le_enc 8 rsv)))
      by (rewrite !lenN_app, L1, L2, L3, L4, app_nil_r, <- !app_assoc; reflexivity). rewrite slice_app_mid. now apply le_dec_enc_small. }
  rewrite <- E0, <- E1, <- E2, <- E3. clearbody b. clear.
  change (txt "hvm_modlist_entry" ++ txt " { " ++ join (txt ", ")
    [txt "paddr" ++ txt ": " ++ fmt_dec (le_dec (slice b 0 8)); txt "size" ++ txt ": " ++ fmt_dec (le_dec (slice b 8 8));
     txt "cmdline_paddr" ++ txt ": " ++ fmt_dec (le_dec (slice b 16 8)); txt "reserved" ++ txt ": " ++ fmt_dec (le_dec (slice b 24 8))] ++ txt " }" =
    txt "hvm_modlist_entry { paddr: " ++ fmt_dec (le_dec (slice b 0 8)) ++ txt ", size: " ++ fmt_dec (le_dec (slice b 8 8)) ++
    txt ", cmdline_paddr: " ++ fmt_dec (le_dec (slice b 16 8)) ++ txt ", reserved: " ++ fmt_dec (le_dec (slice b 24 8)) ++ txt " }").
  cbn [join]. rewrite <- !app_assoc. reflexivity.
Qed.

Example C124_array_shown : debug_ty field_type_name [] (Arr 3 U8) [x01; x02; xff] = txt "[1, 2, 255]".
Proof. reflexivity. Qed.
