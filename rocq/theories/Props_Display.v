(** * Props_Display: C65, what error messages tell.

    The messages are literals; the specification speaks of them only through equality,
    [printable] (SpecCmdline.v) and reading a number back ([read_number], SpecCmdline.v). *)
From Verif Require Import Base Base_proofs Text Cmdline SpecCmdline Text_proofs Cmdline_proofs
  Cmdline_proofs2 Loader BootParams Display SpecDisplay.
Local Open Scope list_scope.

(** ** C65: the message identifies the error. *)
Definition all_elf : list elf_error :=
  [Align; BigEndianElfOnLittle; InvalidElfMagicNumber; InvalidProgramHeaderSize;
   InvalidProgramHeaderOffset; InvalidProgramHeaderAddress; InvalidEntryAddress; ElfOverflow;
   ReadElfHeader; ReadKernelImage; ReadProgramHeader; SeekKernelStart; SeekElfStart;
   SeekProgramHeader; SeekNoteHeader; ReadNoteHeader; InvalidPvhNote].
Definition all_bz : list bz_error :=
  [InvalidBzImage; BzOverflow; ReadBzImageHeader; ReadBzImageCompressedKernel; SeekBzImageEnd;
   SeekBzImageHeader; SeekBzImageCompressedKernel; BzUnderflow].
Definition all_pe : list pe_error :=
  [SeekImageEnd; SeekImageHeader; SeekDtbStart; SeekDtbEnd; DtbTooBig; PeReadKernelImage;
   ReadImageHeader; ReadDtbImage; InvalidImage; InvalidImageMagicNumber; InvalidBaseAddrAlignment].
Definition all_loader : list lerror :=
  map LElf all_elf ++ map LBz all_bz ++ map LPe all_pe ++
  [InvalidCommandLine; CommandLineCopy; CommandLineOverflow; InvalidKernelStartAddress; MemoryOverflow].
Definition all_boot : list berror :=
  map BLinux [ZeroPagePastRamEnd; ZeroPageSetup] ++
  map BPvh [MemmapTableAddressMissing; MemmapTableMissing; MemmapTablePastRamEnd; MemmapTableSetup;
            StartInfoPastRamEnd; StartInfoSetup; ModulesAddressMissing; ModulesSetup] ++
  map BFdt [FDTPastRamEnd; WriteFDTToMemory] ++ [MissingStartAddress; BOverflow; InvalidAddress].

Lemma by_lookup {A B} (show : A -> B) (eqb : B -> B -> bool) (l : list A) :
  (forall x, eqb x x = true) ->
  (forall a, find (fun x => eqb (show x) (show a)) l = Some a) ->
  forall a a', show a = show a' -> a = a'.
Proof. intros Hr H a a' E. pose proof (H a) as H1. rewrite E, H in H1. congruence. Qed.

Lemma text_eqb_refl t : text_eqb t t = true.
Proof. unfold text_eqb. destruct (list_eq_dec _ t t); congruence. Qed.

Theorem C65_loader_message_identifies : forall e e',
  lerror_display e = lerror_display e' -> e = e'.
Proof.
  apply (by_lookup lerror_display text_eqb all_loader text_eqb_refl).
  intros [[]|[]|[]| | | | |]; vm_compute; reflexivity.
Qed.

Definition chain_eqb (a b : text * option text) : bool :=
  text_eqb (fst a) (fst b) &&
  match snd a, snd b with
  | None, None => true
  | Some x, Some y => text_eqb x y
  | _, _ => false
  end.
Lemma chain_eqb_refl t : chain_eqb t t = true.
Proof. destruct t as [a [b|]]; unfold chain_eqb; cbn; rewrite ?text_eqb_refl; reflexivity. Qed.

(** Boot configurator errors are identified by message and source message together ... *)
Theorem C65_boot_chain_identifies : forall e e',
  berror_display e = berror_display e' -> berror_source e = berror_source e' -> e = e'.
Proof.
  intros e e' H1 H2.
  apply (by_lookup (fun e => (berror_display e, berror_source e)) chain_eqb all_boot chain_eqb_refl);
    [|cbn beta; rewrite H1, H2; reflexivity].
  intros [[]|[]|[]| | |]; vm_compute; reflexivity.
Qed.
(** ... but not by the message alone: it leaves out the inner error. *)
Theorem C65_boot_message_alone_refuted : exists e e',
  e <> e' /\ berror_display e = berror_display e'.
Proof. exists (BLinux ZeroPagePastRamEnd), (BLinux ZeroPageSetup). split; [congruence|reflexivity]. Qed.

(** Command line errors, including the key a missing value was for. *)
Theorem C65_cmdline_message_identifies : forall e e',
  cerror_display e = cerror_display e' -> e = e'.
Proof.
  intros e e' H. destruct e; destruct e'; try reflexivity; try (exfalso; vm_compute in H; discriminate H).
  cbn [cerror_display] in H. apply app_inv_head in H. apply app_inv_tail in H. congruence.
Qed.

(** A wrapped error is reported by [source], and the loader's message ends with it. *)
Theorem C65_loader_source : forall e,
  match lerror_source e with
  | Some s => exists prefix, lerror_display e = prefix ++ s
  | None => e = InvalidCommandLine \/ e = CommandLineCopy \/ e = CommandLineOverflow \/
            e = InvalidKernelStartAddress \/ e = MemoryOverflow
  end.
Proof.
  intros [e|e|e| | | | |]; cbn [lerror_source]; try tauto; unfold lerror_display;
    match goal with |- exists p, ?a ++ ?b ++ ?s = _ => exists (a ++ b) end; apply app_assoc.
Qed.

(** Messages are one line of printable ASCII: for every loader and boot configurator error, and for
    every error a command line constructor or call returns (whatever its arguments contain). *)
Definition printableb (c : N) : bool := (32 <=? c) && (c <=? 126).
Lemma printableb_all t : forallb printableb t = true -> Forall printable t.
Proof.
  intros H. apply Forall_forall. intros c Hc. rewrite forallb_forall in H. apply H in Hc.
  unfold printableb in Hc. apply andb_true_iff in Hc as [A B].
  apply N.leb_le in A. apply N.leb_le in B. split; assumption.
Qed.

Definition nomv {A} (x : outcome cerror A) : Prop := forall k, x <> Err (MissingVal k).
Lemma nomv_ctry {A} c (x : outcome cerror A) f : nomv x ->
  (forall a c' k, f a <> (c', Err (MissingVal k))) -> forall c' k, ctry c x f <> (c', Err (MissingVal k)).
Proof. intros Hx Hf c' k H. destruct x; cbn [ctry] in H; [eapply Hf; exact H| |congruence].
  apply (Hx k). congruence. Qed.
Lemma nomv_bind {A B} (x : outcome cerror A) (f : A -> outcome cerror B) : nomv x ->
  (forall a, nomv (f a)) -> nomv (obind x f).
Proof. intros Hx Hf k H. destruct x; cbn [obind] in H; [eapply Hf; exact H| |congruence].
  apply (Hx k). congruence. Qed.
Lemma nomv_uadd bld a b : nomv (uadd (E := cerror) bld a b).
Proof. intros k. unfold uadd. destruct (_ <? _), bld; congruence. Qed.
Lemma nomv_ok_or {A} (o : option A) : nomv (ok_or o TooLarge).
Proof. intros k. destruct o; cbn; congruence. Qed.
Lemma nomv_ok {A} (a : A) : nomv (Ok (E := cerror) a).
Proof. intros k. congruence. Qed.
Lemma nomv_valid_str s : nomv (valid_str s).
Proof. intros k. unfold valid_str. destruct (forallb _ _); congruence. Qed.
Lemma nomv_repr_size bld c : nomv (repr_size bld c).
Proof.
  unfold repr_size. apply nomv_bind; [apply nomv_uadd|]. intros n. destruct (init_args c); [apply nomv_ok|].
  apply nomv_bind; [apply nomv_uadd|]. intros m. apply nomv_uadd.
Qed.
Lemma insert_str_nomv bld c s c' k : insert_str bld c s <> (c', Err (MissingVal k)).
Proof.
  unfold insert_str. cbv zeta.
  apply nomv_ctry; [apply nomv_valid_str|intros _].
  apply nomv_ctry; [apply nomv_repr_size|intros n0].
  apply nomv_ctry; [destruct (is_empty _); [apply nomv_ok|apply nomv_ok_or]|intros n1].
  apply nomv_ctry; [apply nomv_ok_or|intros n2].
  intros c1 q. destruct (_ <? _); congruence.
Qed.
Lemma insert_init_nomv bld c s c' k : insert_init_args bld c s <> (c', Err (MissingVal k)).
Proof.
  unfold insert_init_args. cbv zeta.
  apply nomv_ctry; [apply nomv_valid_str|intros _].
  apply nomv_ctry; [apply nomv_repr_size|intros n0].
  apply nomv_ctry; [apply nomv_ok_or|intros n1].
  apply nomv_ctry; [apply nomv_ok_or|intros n2].
  intros c1 q. destruct (_ <? _); congruence.
Qed.

Theorem C65_messages_printable :
  (forall e, Forall printable (lerror_display e)) /\
  (forall e, Forall printable (berror_display e)) /\
  (forall bld c o c' e, run_op bld c o = (c', Err e) -> Forall printable (cerror_display e)) /\
  (forall k e, run_ctor k = Err e -> Forall printable (cerror_display e)) /\
  (forall c e, as_cstring c = Err e -> Forall printable (cerror_display e)).
Proof.
  split. { intros [[]|[]|[]| | | | |]; apply printableb_all; vm_compute; reflexivity. }
  split. { intros [[]|[]|[]| | |]; apply printableb_all; vm_compute; reflexivity. }
  assert (G : forall e, (forall k, e <> MissingVal k) -> Forall printable (cerror_display e)).
  { intros [] H; try (apply printableb_all; vm_compute; reflexivity). now contradiction (H key). }
  assert (S : forall bld c s c' e, insert_str bld c s = (c', Err e) -> forall k, e <> MissingVal k).
  { intros bld c s c' e H k ->. revert H. apply insert_str_nomv. }
  split.
  { intros bld c o c' e H. destruct o as [k v|k vs|s|s|size base irq id]; cbn [run_op] in H.
    - apply G. intros q ->. unfold insert in H.
      destruct (valid_key_cases k) as [[_ E]|(e1 & He & E)]; rewrite E in H; cbn [ctry] in H;
        [|inversion He; subst; congruence].
      destruct (valid_value_cases v) as [[_ E2]|(e1 & He & E2)]; rewrite E2 in H; cbn [ctry] in H;
        [|inversion He; subst; congruence].
      eapply S; [exact H|reflexivity].
    - unfold insert_multiple in H.
      destruct (valid_key_cases k) as [[Hk E]|(e1 & He & E)]; rewrite E in H; cbn [ctry] in H.
      2:{ apply G. intros q ->. inversion He; subst; congruence. }
      destruct vs as [|v vs].
      + inversion H; subst. cbn [cerror_display]. destruct Hk as (Hk & _).
        apply Forall_app. split; [apply printableb_all; vm_compute; reflexivity|].
        apply Forall_app. split; [exact Hk|apply printableb_all; vm_compute; reflexivity].
      + apply G. intros q ->.
        assert (CV : forall l e, collect_values l = Err e -> forall k, e <> MissingVal k).
        { clear. induction l as [|x l IH]; intros e H q ->; cbn [collect_values] in H; [congruence|].
          destruct (valid_value_cases x) as [[_ E]|(e1 & He & E)]; rewrite E in H; cbn [obind] in H;
            [|inversion He; subst; congruence].
          destruct (collect_values l) eqn:E3; cbn [obind] in H; try congruence.
          inversion H; subst. eapply IH; reflexivity. }
        destruct (collect_values (v :: vs)) eqn:E3; cbn [ctry] in H.
        * eapply S; [exact H|reflexivity].
        * inversion H; subst. eapply CV; [exact E3|reflexivity].
        * congruence.
    - apply G. eapply S; exact H.
    - apply G. intros q ->. revert H. apply insert_init_nomv.
    - apply G. intros q ->. unfold add_virtio_mmio_device in H.
      destruct (size =? 0); [congruence|]. eapply S; [exact H|reflexivity]. }
  split.
  { intros k e H. apply G. intros q ->. destruct k; cbn [run_ctor] in H.
    - unfold cmdline_new in H. destruct (cap =? 0); congruence.
    - unfold cmdline_try_from in H. destruct (cap =? 0); [congruence|].
      destruct (split_cmdline raw) as [b i]. revert H.
      apply nomv_bind; [apply nomv_ok_or|]. intros n0.
      apply nomv_bind.
      + destruct (trim i); [apply nomv_ok|]. apply nomv_bind; [apply nomv_ok_or|]. intros n1. apply nomv_ok_or.
      + intros n1 k. destruct (_ <? _); congruence. }
  intros c e H. apply G. intros q ->. unfold as_cstring, cstring_new in H.
  repeat match type of H with context [match ?x with _ => _ end] => destruct x end; congruence.
Qed.

(** The PVH capability's message tells the entry address: the hexadecimal number after "0x". *)
Theorem C65_pvh_message :
  (forall a, exists digits,
     pvh_cap_display (PvhEntryPresent a) =
       txt "PVH entry point present at guest address: 0x" ++ digits /\
     read_number hex_digit 16 digits = Some (a, [])) /\
  (forall c c', pvh_cap_display c = pvh_cap_display c' -> c = c').
Proof.
  assert (R : forall a, read_number hex_digit 16 (fmt_hex a) = Some (a, [])).
  { intros a. rewrite <- (app_nil_r (fmt_hex a)). apply fmt_hex_read. intros c r; discriminate. }
  split. { intros a. exists (fmt_hex a). split; [reflexivity|apply R]. }
  intros c c' H. destruct c, c'; try reflexivity; try (exfalso; vm_compute in H; discriminate H).
  cbn [pvh_cap_display] in H. apply app_inv_head in H. apply app_inv_head in H.
  pose proof (R a) as E. rewrite H, R in E. congruence.
Qed.
Example C65_applies :
  lerror_display (LElf ReadKernelImage) =
    txt "Kernel Loader: failed to load ELF kernel image: Kernel Loader: Unable to read kernel image" /\
  cerror_display (MissingVal (txt "a")) = txt "Missing value for key a." /\
  pvh_cap_display (PvhEntryPresent 16777216) =
    txt "PVH entry point present at guest address: 0x1000000" /\
  (exists bld c o c', run_op bld c o = (c', Err (MissingVal (txt "k")))).
Proof.
  repeat (split; [vm_compute; reflexivity|]).
  exists true, (mkCmdline [] [] 10), (OpMultiple (txt "k") []). eexists. vm_compute. reflexivity.
Qed.

(** ** The message is about the error: it mentions the key words of SpecDisplay.v. *)
Fixpoint occurs (s kw : text) : bool := starts_with s kw || match s with [] => false | _ :: r => occurs r kw end.
Lemma starts_with_app s p : starts_with s p = true -> exists b, s = p ++ b.
Proof.
  revert s. induction p as [|a p IH]; intros s H; [exists s; reflexivity|].
  destruct s as [|c s]; [discriminate|]. cbn in H. apply Bool.andb_true_iff in H as [E H]. apply N.eqb_eq in E. subst c.
  destruct (IH s H) as (b & ->). exists b. reflexivity.
Qed.
Lemma occurs_mentions s kw : occurs s kw = true -> mentions s kw.
Proof.
  induction s as [|c s IH]; cbn [occurs]; intros H; apply Bool.orb_true_iff in H as [H|H]; try discriminate.
  - destruct (starts_with_app _ _ H) as (b & E). exists [], b. exact E.
  - destruct (starts_with_app _ _ H) as (b & E). exists [], b. exact E.
  - destruct (IH H) as (a & b & ->). exists (c :: a), b. reflexivity.
Qed.
Lemma all_mentioned s ws : forallb (fun w => occurs s (txt w)) ws = true -> forall w, In w ws -> mentions s (txt w).
Proof. intros H w Hw. rewrite forallb_forall in H. apply occurs_mentions. exact (H w Hw). Qed.
Lemma mentions_left s t kw : mentions s kw -> mentions (s ++ t) kw.
Proof. intros (a & b & ->). exists a, (b ++ t). rewrite <- !app_assoc. reflexivity. Qed.

Theorem C65_messages_to_the_point :
  (forall e w, In w (loader_words e) -> mentions (lerror_display e) (txt w)) /\
  (forall e w, In w (boot_words e) -> mentions (berror_display e) (txt w)) /\
  (forall e, match source_words e, berror_source e with
             | Some ws, Some s => forall w, In w ws -> mentions s (txt w)
             | None, None => True
             | _, _ => False
             end) /\
  (forall e w, In w (cmdline_words e) -> mentions (cerror_display e) (txt w)) /\
  (forall k, mentions (cerror_display (MissingVal k)) k).
Proof.
  split; [|split; [|split; [|split]]].
  - intros e. apply all_mentioned. destruct e as [[]|[]|[]| | | | |]; vm_compute; reflexivity.
  - intros e. apply all_mentioned. destruct e as [[]|[]|[]| | |]; vm_compute; reflexivity.
  - intros e. destruct e as [[]|[]|[]| | |]; cbn [source_words berror_source]; try exact I; apply all_mentioned; vm_compute; reflexivity.
  - intros e. destruct e as [| | | | | |k| | | |]; try (apply all_mentioned; vm_compute; reflexivity).
  - intros k. exists (txt "Missing value for key "), (txt "."). reflexivity.
Qed.
