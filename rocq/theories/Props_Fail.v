(** * Props_Fail: C109, no failure of an image source is swallowed. *)
From Verif Require Import Base Io Mem SpecMem SpecFile Text Cmdline Loader SpecElf SpecBz Pe SpecPe Source SpecTalk Props_Talk.
Local Open Scope list_scope.

(** The source answered with an error. *)
Definition failed (e : event) : Prop :=
  match e with
  | SoughtEnd g | SoughtTo _ g | SoughtBy _ g => g = None
  | ReadAll _ g | ReadSome _ g | ReadGuest _ g => g = None
  end.
(** The errors of the crate that say "could not seek" and "could not read". *)
Definition seek_error (e : lerror) : Prop :=
  In e [LElf SeekElfStart; LElf SeekProgramHeader; LElf SeekKernelStart; LElf SeekNoteHeader;
        LBz SeekBzImageEnd; LBz SeekBzImageHeader; LBz SeekBzImageCompressedKernel;
        LPe SeekImageEnd; LPe SeekImageHeader; LPe SeekDtbStart; LPe SeekDtbEnd].
Definition read_error (e : lerror) : Prop :=
  In e [LElf ReadElfHeader; LElf ReadProgramHeader; LElf ReadKernelImage; LElf ReadNoteHeader;
        LBz ReadBzImageHeader; LBz ReadBzImageCompressedKernel;
        LPe ReadImageHeader; LPe PeReadKernelImage; LPe ReadDtbImage].
Definition names (ev : event) (e : lerror) : Prop :=
  match ev with SoughtEnd _ | SoughtTo _ _ | SoughtBy _ _ => seek_error e | _ => read_error e end.
(** A failing answer is the last one, and the call reports it. *)
Definition reports_failure {A} (evs : list event) (o : outcome lerror A) : Prop :=
  forall before ev after, evs = before ++ ev :: after -> failed ev ->
    after = [] /\ exists e, o = Err e /\ names ev e.

Definition answered (e : event) : Prop := ~ failed e.
(** The form used in the proofs. *)
Definition sound {A} (evs : list event) (o : outcome lerror A) : Prop :=
  Forall answered evs \/ exists pre ev e, evs = pre ++ [ev] /\ Forall answered pre /\ failed ev /\ o = Err e /\ names ev e.
Lemma sound_reports {A} evs (o : outcome lerror A) : sound evs o -> reports_failure evs o.
Proof.
  intros [H|(pre & x & e & -> & Hp & Hx & -> & Hn)] before ev after Eq Hf.
  - subst. apply Forall_app in H as [_ H]. inversion H; subst. contradiction.
  - assert (D : after = [] \/ exists a z, after = a ++ [z]).
    { destruct after as [|y l] using rev_ind; [left; reflexivity|right; eauto]. }
    destruct D as [->|(a & z & ->)].
    + apply app_inj_tail in Eq as [-> ->]. split; [reflexivity|]. eauto.
    + exfalso. rewrite app_comm_cons, app_assoc in Eq. apply app_inj_tail in Eq as [-> _].
      apply Forall_app in Hp as [_ Hp]. inversion Hp; subst. contradiction.
Qed.
Lemma sound_ok {A} (evs : list event) (x : A) : sound evs (Ok x) -> Forall answered evs.
Proof. intros [H|(? & ? & ? & _ & _ & _ & H & _)]; [exact H|discriminate]. Qed.
Lemma sound_app {A} pre evs (o : outcome lerror A) : Forall answered pre -> sound evs o -> sound (pre ++ evs) o.
Proof.
  intros Hp [H|(p & ev & e & -> & H & R)]; [left; apply Forall_app; split; assumption|].
  right. exists (pre ++ p), ev, e. rewrite app_assoc. split; [reflexivity|]. split; [apply Forall_app; split; assumption|exact R].
Qed.
Lemma sound_cons {A} x evs (o : outcome lerror A) : answered x -> sound evs o -> sound (x :: evs) o.
Proof. intros Hx. apply (sound_app [x]). constructor; [exact Hx|constructor]. Qed.
Lemma sound_one {A} ev e : failed ev -> names ev e -> sound (A := A) [ev] (Err e).
Proof. intros H1 H2. right. exists [], ev, e. split; [reflexivity|]. split; [constructor|]. split; [exact H1|]. split; [reflexivity|exact H2]. Qed.
Lemma sound_nil {A} (o : outcome lerror A) : sound [] o.
Proof. left. constructor. Qed.

Ltac good := unfold answered, failed; discriminate.
Ltac named := cbn [names]; unfold seek_error, read_error; cbn [In]; tauto.
Ltac steps := repeat (apply sound_cons; [good|]).
Ltac ends := first [apply sound_nil | apply sound_one; [reflexivity|named]].

(** Copying *)
Lemma proper_sound {A} be m e : read_error e -> forall evs a n, proper be m a n evs -> sound (A := A) evs (Err e).
Proof.
  intros He evs. induction evs as [|ev evs IH]; intros a n H; [apply sound_nil|].
  cbn [proper] in H. destruct ev as [| | | | |k got]; try contradiction. destruct H as (_ & _ & _ & H).
  destruct got as [bs|].
  - destruct H as (_ & _ & H). apply sound_cons; [good|]. apply (IH _ _ H).
  - subst. apply sound_one; [reflexivity|exact He].
Qed.
Lemma proper_guest be m : forall evs a n, proper be m a n evs -> Forall (fun e => exists k g, e = ReadGuest k g) evs.
Proof.
  intros evs. induction evs as [|ev evs IH]; intros a n H; [constructor|]. cbn [proper] in H. destruct ev as [| | | | |k got]; try contradiction.
  destruct H as (_ & _ & _ & H). constructor; [eauto|]. destruct got as [bs|]; [|subst; constructor]. destruct H as (_ & _ & H). apply (IH _ _ H).
Qed.
Lemma copied_sound {A} be m a n evs m' (o : outcome lerror A) : copied be m a n evs m' -> sound evs o.
Proof.
  intros (Hp & _ & H & _). left. apply proper_guest in Hp. apply Forall_forall. intros e He Hf. rewrite Forall_forall in H, Hp. apply (H e He).
  destruct (Hp e He) as (k & g & ->). cbn [failed] in Hf. subst. exact I.
Qed.
Lemma not_copied_sound {A} be m a n evs m' e : read_error e -> not_copied be m a n evs m' -> sound (A := A) evs (Err e).
Proof. intros He (Hp & _). apply (proper_sound be m e He _ _ _ Hp). Qed.

Lemma dtb_sound be addr m evs m' o : dtb_talk be addr m evs m' o -> sound evs o.
Proof.
  intros H. destruct H; steps; try ends.
  - eapply not_copied_sound; [named|eassumption].
  - eapply copied_sound; eassumption.
Qed.
Lemma pe_sound a be off m evs m' o : pe_talk a be off m evs m' o -> sound evs o.
Proof.
  intros H. destruct H; steps; try ends.
  - eapply not_copied_sound; [named|eassumption].
  - eapply copied_sound; eassumption.
Qed.
Lemma bz_sound be off highmem m evs m' o : bz_talk be off highmem m evs m' o -> sound evs o.
Proof.
  intros H. destruct H; steps; try ends.
  - eapply not_copied_sound; [named|eassumption].
  - eapply copied_sound; eassumption.
Qed.
Lemma entry_sound h evs o : entry_talk h evs o -> sound evs o.
Proof. intros H. destruct H; steps; ends. Qed.
Lemma other_note_answered h evs : other_note h evs -> Forall answered evs.
Proof. intros H. destruct H; repeat constructor; good. Qed.
Lemma notes_sound bld start filesz rs evs o : notes_talk bld start filesz rs evs o -> sound evs o.
Proof.
  intros H. induction H; steps; try ends.
  - eapply entry_sound; eassumption.
  - left. eapply other_note_answered; eassumption.
  - left. eapply other_note_answered; eassumption.
  - apply sound_app; [eapply other_note_answered; eassumption|]. ends.
  - apply sound_app; [eapply other_note_answered; eassumption|]. steps. exact IHnotes_talk.
Qed.
Lemma sound_map {A B} evs (o : outcome lerror A) (o' : outcome lerror B) : (forall e, o = Err e -> o' = Err e) -> sound evs o -> sound evs o'.
Proof.
  intros H [G|(p & ev & e & -> & G1 & G2 & -> & G3)]; [left; exact G|]. right. exists p, ev, e. rewrite (H e eq_refl). auto.
Qed.
Lemma ph_sound bld be off m p evs m' o : ph_talk bld be off m p evs m' o -> sound evs o.
Proof.
  intros H. destruct H; steps; try ends.
  - eapply sound_map; [|eapply notes_sound; eassumption]. intros e ->. reflexivity.
  - eapply not_copied_sound; [named|eassumption].
  - eapply copied_sound; eassumption.
  - eapply copied_sound; eassumption.
Qed.
Lemma table_sound bld be off m ps c evs m' o : table_talk bld be off m ps c evs m' o -> sound evs o.
Proof.
  intros H. induction H.
  - ends.
  - eapply sound_map; [|eapply ph_sound; eassumption]. intros x G. injection G as ->. reflexivity.
  - eapply sound_map; [|eapply ph_sound; eassumption]. intros x G. discriminate.
  - apply sound_app; [|exact IHtable_talk]. eapply sound_ok. eapply ph_sound; eassumption.
Qed.
Lemma elf_sound bld be off highmem m evs m' o : elf_talk bld be off highmem m evs m' o -> sound evs o.
Proof.
  assert (G : forall bs, Forall answered (map got_entry bs)).
  { intros bs. apply Forall_forall. intros e He. apply in_map_iff in He as (b & <- & _). unfold got_entry. good. }
  intros H. destruct H; steps; try ends.
  - apply sound_app; [apply G|]. ends.
  - apply sound_app; [apply G|]. eapply sound_map; [|eapply table_sound; eassumption]. intros e ->. reflexivity.
Qed.

(** ** C109: whatever the source does, the first error it answers ends the conversation, and the call reports an error of the
    kind of the failed question.  In particular a call that reports success had no failing answer. *)
Theorem C109_elf : forall S (src : source S) bld be off highmem s m s' m' o, plausible src -> roomy src -> wf_mem m = true ->
  gelf_load src bld be off highmem s m = (s', m', o) ->
  exists evs, talk src s evs s' /\ elf_talk bld be off highmem m evs m' o /\ reports_failure evs o.
Proof.
  intros S0 src bld be off highmem s m s' m' o P R W H. destruct (C92_elf S0 src bld be off highmem s m s' m' o P R W H) as (evs & H1 & H2).
  exists evs. split; [exact H1|]. split; [exact H2|]. apply sound_reports. exact (elf_sound _ _ _ _ _ _ _ _ H2).
Qed.
Theorem C109_bz : forall S (src : source S) be off highmem s m s' m' o, plausible src -> roomy src -> wf_mem m = true ->
  (forall k, off = Some k -> k < 2 ^ 64) ->
  gbz_load src be off highmem s m = (s', m', o) ->
  exists evs, talk src s evs s' /\ bz_talk be off highmem m evs m' o /\ reports_failure evs o.
Proof.
  intros S0 src be off highmem s m s' m' o P R W K H. destruct (C91_bz S0 src be off highmem s m s' m' o P R W K H) as (evs & H1 & H2).
  exists evs. split; [exact H1|]. split; [exact H2|]. apply sound_reports. exact (bz_sound _ _ _ _ _ _ _ H2).
Qed.
Theorem C109_pe : forall S (src : source S) a be off highmem s m s' m' o, plausible src -> roomy src -> wf_mem m = true ->
  gpe_load src a be off highmem s m = (s', m', o) ->
  exists evs, talk src s evs s' /\ pe_talk a be off m evs m' o /\ reports_failure evs o.
Proof.
  intros S0 src a be off highmem s m s' m' o P R W H. destruct (C90_pe S0 src a be off highmem s m s' m' o P R W H) as (evs & H1 & H2).
  exists evs. split; [exact H1|]. split; [exact H2|]. apply sound_reports. exact (pe_sound _ _ _ _ _ _ _ H2).
Qed.
Theorem C109_dtb : forall S (src : source S) be addr s m s' m' o, plausible src -> roomy src -> wf_mem m = true ->
  gload_dtb src be addr s m = (s', m', o) ->
  exists evs, talk src s evs s' /\ dtb_talk be addr m evs m' o /\ reports_failure evs o.
Proof.
  intros S0 src be addr s m s' m' o P R W H. destruct (C90_dtb S0 src be addr s m s' m' o P R W H) as (evs & H1 & H2).
  exists evs. split; [exact H1|]. split; [exact H2|]. apply sound_reports. exact (dtb_sound _ _ _ _ _ _ H2).
Qed.

(** The script of [good_elf] (to which C109 applies, [C90_C93_hypotheses]) cut off at each place in turn: the source answers with an error
    there, and the call reports the failed step. *)
Example C109_every_place :
  map (fun i => match gelf_load scripted true GetSlices None None (firstn i good_elf) some_memory with (s', _, o) => o end) (seq 0 13) =
  [Err (LElf SeekElfStart); Err (LElf ReadElfHeader); Err (LElf SeekProgramHeader); Err (LElf ReadProgramHeader); Err (LElf ReadProgramHeader);
   Err (LElf SeekKernelStart); Err (LElf ReadKernelImage); Err (LElf SeekNoteHeader); Err (LElf ReadNoteHeader); Err (LElf ReadNoteHeader);
   Err (LElf SeekNoteHeader); Err (LElf ReadNoteHeader); Ok (mkResult 0x200010 0x200020 None (PvhEntryPresent 0xabc))].
Proof. lazy. reflexivity. Qed.
