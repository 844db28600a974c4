(** * Props_Talk: sources that change under the loader (C90 to C93).

    Every other file takes an image to be a fixed sequence of bytes.  Here the source may answer anything at
    any time ([plausible] is all that is asked of it): somebody truncates or rewrites the file while it is being loaded, its
    length is not its length, the same place reads differently twice. *)
From Verif Require Import Base Base_proofs Io Mem SpecMem Mem_proofs Layout SpecFile File_proofs Text Cmdline Loader Elf SpecElf
  Elf_proofs BzImage SpecBz Pe SpecPe Source SpecTalk Talk_proofs.

(** ** C90: device tree blobs and PE images.  The rules are in SpecTalk: one question about the length, one look at the
    header, and from there on only reads into guest memory. *)
Theorem C90_dtb : forall S (src : source S) be addr s m s' m' o, plausible src -> roomy src -> wf_mem m = true ->
  gload_dtb src be addr s m = (s', m', o) ->
  exists evs, talk src s evs s' /\ dtb_talk be addr m evs m' o.
Proof. intros S src be addr s m s' m' o Hp Hr. exact (gload_dtb_talk src Hp Hr be addr s m s' m' o). Qed.

Theorem C90_pe : forall S (src : source S) a be off highmem s m s' m' o, plausible src -> roomy src -> wf_mem m = true ->
  gpe_load src a be off highmem s m = (s', m', o) ->
  exists evs, talk src s evs s' /\ pe_talk a be off m evs m' o.
Proof. intros S src a be off highmem s m s' m' o Hp Hr. exact (gpe_load_talk src Hp Hr a be off highmem s m s' m' o). Qed.

(** ** C91: bzImages. *)
Theorem C91_bz : forall S (src : source S) be off highmem s m s' m' o, plausible src -> roomy src -> wf_mem m = true ->
  (forall k, off = Some k -> k < 2 ^ 64) ->
  gbz_load src be off highmem s m = (s', m', o) ->
  exists evs, talk src s evs s' /\ bz_talk be off highmem m evs m' o.
Proof. intros S src be off highmem s m s' m' o Hp Hr. exact (gbz_load_talk src Hp Hr be off highmem s m s' m' o). Qed.

(** ** C92: ELF images. *)
Theorem C92_elf : forall S (src : source S) bld be off highmem s m s' m' o, plausible src -> roomy src -> wf_mem m = true ->
  gelf_load src bld be off highmem s m = (s', m', o) ->
  exists evs, talk src s evs s' /\ elf_talk bld be off highmem m evs m' o.
Proof. intros S src bld be off highmem s m s' m' o Hp Hr. exact (gelf_load_talk src Hp Hr bld be off highmem s m s' m' o). Qed.

(** ** Guest memory outside of what the answers name is out of reach *)
Lemma landed_range be m : forall evs a n, proper be m a n evs -> forall x, ~ in_range a n x -> forall f, overlay f (landed be a evs) x = f x.
Proof.
  induction evs as [|e evs IH]; intros a n Hp x Hx f; [reflexivity|].
  destruct e as [got|p got|d got|k got|k got|k got]; try contradiction. destruct got as [bs|]; [|reflexivity].
  cbn in Hp. destruct Hp as (H1 & H2 & _ & H3 & _ & H4). cbn [landed]. unfold overlay. cbn [fold_left fst snd].
  fold (overlay (put f a bs) (landed be (a + moved be k bs) evs)).
  rewrite (IH _ _ H4).
  - apply put_out. unfold in_range in *. lia.
  - unfold in_range, moved in *. destruct be; lia.
Qed.
Lemma not_copied_frame be m a n evs m' : not_copied be m a n evs m' -> same_outside m m' (in_range a n).
Proof. intros (P & _ & R & M). split; [exact R|]. intros x Hx. rewrite M. now apply (landed_range be m evs a n). Qed.
Lemma copied_frame be m a n evs m' : copied be m a n evs m' -> same_outside m m' (in_range a n).
Proof.
  intros (_ & _ & _ & L & R & M). split; [exact R|]. intros x Hx. rewrite M. cbn. apply put_out. now rewrite L.
Qed.

Theorem C90_dtb_confined : forall S (src : source S) be addr s m s' m' o, plausible src -> roomy src -> wf_mem m = true ->
  gload_dtb src be addr s m = (s', m', o) ->
  (forall w, o <> Panic w) /\ same_outside m m' (in_range addr (2 * 1024 * 1024)).
Proof.
  intros S src be addr s m s' m' o Hp Hr Hw H. destruct (C90_dtb _ _ _ _ _ _ _ _ _ Hp Hr Hw H) as (evs & _ & K).
  destruct K as [ |n Hn|n Hn|n q evs m' Hn C|n q evs m' Hn C]; (split; [discriminate|]); try apply same_outside_refl.
  - apply (same_outside_mono _ _ (in_range addr n)); [unfold in_range; lia|exact (not_copied_frame _ _ _ _ _ _ C)].
  - apply (same_outside_mono _ _ (in_range addr n)); [unfold in_range; lia|exact (copied_frame _ _ _ _ _ _ C)].
Qed.

Theorem C90_pe_confined : forall S (src : source S) a be off highmem s m s' m' o, plausible src -> roomy src -> wf_mem m = true ->
  gpe_load src a be off highmem s m = (s', m', o) ->
  (forall w, o <> Panic w) /\
  (m' = m \/ exists evs n h, talk src s evs s' /\ In (SoughtEnd (Some n)) evs /\ In (ReadAll 64 (Some h)) evs /\
     pe_good a h off /\ same_outside m m' (in_range (pe_load_addr a h off) n)).
Proof.
  intros S src a be off highmem s m s' m' o Hp Hr Hw H. destruct (C90_pe _ _ _ _ _ _ _ _ _ _ _ Hp Hr Hw H) as (evs & T & K).
  destruct K as [ |n|n q|n q h e Hl He|n q h Hl He|n q h q2 evs m' Hl He C|n q h q2 evs m' Hl He C Hb]; (split; [discriminate|]); auto;
    right; eexists _, n, h; (split; [exact T|]); (split; [cbn; auto|]); (split; [cbn; auto|]); (split; [exact He|]).
  - exact (not_copied_frame _ _ _ _ _ _ C).
  - exact (copied_frame _ _ _ _ _ _ C).
Qed.

Theorem C91_bz_confined : forall S (src : source S) be off highmem s m s' m' o, plausible src -> roomy src -> wf_mem m = true ->
  (forall k, off = Some k -> k < 2 ^ 64) ->
  gbz_load src be off highmem s m = (s', m', o) ->
  (forall w, o <> Panic w) /\
  (m' = m \/ exists evs n bs, talk src s evs s' /\ In (SoughtEnd (Some n)) evs /\ In (ReadSome 123 (Some bs)) evs /\
     bz_good n bs highmem /\
     same_outside m m' (in_range (bz_load_addr (as_file bs) off) (n - bz_setup_size (as_file bs)))).
Proof.
  intros S src be off highmem s m s' m' o Hp Hr Hw Ho H. destruct (C91_bz _ _ _ _ _ _ _ _ _ _ Hp Hr Hw Ho H) as (evs & T & K).
  destruct K as [ |n|n q|n q h e Hl He|n q h Hl He|n q h q2 evs m' Hl He C|n q h q2 evs m' Hl He C Hb]; (split; [discriminate|]); auto;
    right; eexists _, n, h; (split; [exact T|]); (split; [cbn; auto|]); (split; [cbn; auto|]); (split; [exact He|]).
  - exact (not_copied_frame _ _ _ _ _ _ C).
  - exact (copied_frame _ _ _ _ _ _ C).
Qed.

(** ELF: what a load has done by the time it ends is confined to the segments of the one table it was given ... *)
Lemma ph_talk_frame bld be off m p evs m' o : ph_talk bld be off m p evs m' o -> same_outside m m' (seg_dest off p).
Proof.
  assert (Z : forall n a, is_load p = true -> a = base_of off + ph_paddr p -> n = ph_filesz p ->
    same_outside m m' (in_range a n) -> same_outside m m' (seg_dest off p)).
  { intros n a El -> ->. apply same_outside_mono. intros x Hx. split; [exact El|exact Hx]. }
  intros H. destruct H as [ |k| |q evs o| |q|q evs m' El Ha C|q evs m' El Ha C He|q evs m' El Ha C He]; try apply same_outside_refl.
  - exact (Z _ _ El eq_refl eq_refl (not_copied_frame _ _ _ _ _ _ C)).
  - exact (Z _ _ El eq_refl eq_refl (copied_frame _ _ _ _ _ _ C)).
  - exact (Z _ _ El eq_refl eq_refl (copied_frame _ _ _ _ _ _ C)).
Qed.
Lemma table_talk_frame bld be off m ps c evs m' o : table_talk bld be off m ps c evs m' o ->
  same_outside m m' (fun x => exists p, In p ps /\ seg_dest off p x).
Proof.
  induction 1 as [m c|m p ps c evs m' e H|m p ps c evs m' w H|m p ps c evs m1 c1 evs2 m' o H _ IH].
  - apply same_outside_refl.
  - eapply same_outside_mono; [|exact (ph_talk_frame _ _ _ _ _ _ _ _ H)]. intros x Hx. exists p. split; [now left|exact Hx].
  - eapply same_outside_mono; [|exact (ph_talk_frame _ _ _ _ _ _ _ _ H)]. intros x Hx. exists p. split; [now left|exact Hx].
  - eapply same_outside_trans.
    + eapply same_outside_mono; [|exact (ph_talk_frame _ _ _ _ _ _ _ _ H)]. intros x Hx. exists p. split; [now left|exact Hx].
    + eapply same_outside_mono; [|exact IH]. intros x (q & Hq & Hx). exists q. split; [now right|exact Hx].
Qed.

Theorem C92_elf_confined : forall S (src : source S) bld be off highmem s m s' m' o, plausible src -> roomy src -> wf_mem m = true ->
  gelf_load src bld be off highmem s m = (s', m', o) ->
  m' = m \/ exists evs h bs, talk src s evs s' /\ elf_good h off highmem /\ lenN bs = phnum_of h /\
    (exists q q2 rest, evs = SoughtTo 0 (Some q) :: ReadAll 64 (Some h) :: SoughtTo (phoff_of h) (Some q2) :: map got_entry bs ++ rest) /\
    same_outside m m' (fun x => exists p, In p (map ph_read bs) /\ seg_dest off p x).
Proof.
  intros S src bld be off highmem s m s' m' o Hp Hr Hw H. destruct (C92_elf _ _ _ _ _ _ _ _ _ _ _ Hp Hr Hw H) as (evs & T & K).
  destruct K as [ |q|q h e Hl He|q h He|q h q2 bs He Hn Hb|q h q2 bs evs m' o He Hn Hb K]; auto.
  right. eexists _, h, bs. split; [exact T|]. split; [exact He|]. split; [exact Hn|]. split; [do 3 eexists; reflexivity|].
  exact (table_talk_frame _ _ _ _ _ _ _ _ _ K).
Qed.

(** ... and a successful one has put, for each of its loadable segments, exactly that many bytes in place. *)
Lemma ph_talk_ok bld be off m p evs m' c : ph_talk bld be off m p evs m' (Ok c) ->
  exists bodies, Forall2 (fun p b => lenN b = ph_filesz p) (loaded [p]) bodies /\
    mem_is_overlay m m' (combine (map (fun p => base_of off + ph_paddr p) (loaded [p])) bodies).
Proof.
  intros H. inversion H as [El En|k El En Eo| |q evs1 o1 El En Eo N| | | | |q evs1 m1 El Ha C He]; subst; unfold loaded; cbn [filter]; rewrite El.
  1,2,3: exists []; (split; [constructor|]); (split; [reflexivity|]); reflexivity.
  exists [heard evs1]. split; [constructor; [apply C|constructor]|]. cbn. apply C.
Qed.
Lemma table_talk_ok bld be off m ps c evs m' o : table_talk bld be off m ps c evs m' o -> forall c', o = Ok c' ->
  exists bodies, Forall2 (fun p b => lenN b = ph_filesz p) (loaded ps) bodies /\
    mem_is_overlay m m' (combine (map (fun p => base_of off + ph_paddr p) (loaded ps)) bodies).
Proof.
  induction 1 as [m c|m p ps c evs m' e H|m p ps c evs m' w H|m p ps c evs m1 c1 evs2 m' o H _ IH]; intros c' E; try discriminate.
  - exists []. split; [constructor|]. split; reflexivity.
  - destruct (IH _ E) as (b2 & F2 & R2 & M2). destruct (ph_talk_ok _ _ _ _ _ _ _ _ H) as (b1 & F1 & R1 & M1).
    exists (b1 ++ b2). replace (loaded (p :: ps)) with (loaded [p] ++ loaded ps) by (unfold loaded; cbn [filter]; destruct (is_load p); reflexivity).
    split; [now apply Forall2_app|]. split; [congruence|]. intros x. rewrite map_app.
    assert (L1 : length (map (fun p => base_of off + ph_paddr p) (loaded [p])) = length b1).
    { rewrite map_length. clear - F1. induction F1; cbn; congruence. }
    assert (Ec : forall (l1 : list N) (k1 : list bytes) l2 k2, length l1 = length k1 -> combine (l1 ++ l2) (k1 ++ k2) = combine l1 k1 ++ combine l2 k2).
    { clear. induction l1 as [|a l1 IHl]; intros [|b k1] l2 k2 L; cbn in L; try discriminate; [reflexivity|]. cbn. f_equal. apply IHl. lia. }
    rewrite Ec by exact L1. rewrite overlay_app, M2. apply overlay_ext. exact M1.
Qed.

Theorem C92_elf_loaded : forall S (src : source S) bld be off highmem s m s' m' res, plausible src -> roomy src -> wf_mem m = true ->
  gelf_load src bld be off highmem s m = (s', m', Ok res) ->
  exists q h q2 bs rest bodies,
    talk src s (SoughtTo 0 (Some q) :: ReadAll 64 (Some h) :: SoughtTo (phoff_of h) (Some q2) :: map got_entry bs ++ rest) s' /\
    elf_good h off highmem /\ lenN bs = phnum_of h /\
    kernel_load res = base_of off + entry_of h /\ kernel_end res = max_end off (map ph_read bs) /\
    Forall2 (fun p b => lenN b = ph_filesz p) (loaded (map ph_read bs)) bodies /\
    mem_is_overlay m m' (combine (map (fun p => base_of off + ph_paddr p) (loaded (map ph_read bs))) bodies).
Proof.
  intros S src bld be off highmem s m s' m' res Hp Hr Hw H. destruct (C92_elf _ _ _ _ _ _ _ _ _ _ _ Hp Hr Hw H) as (evs & T & K).
  inversion K as [ | | | | |q h q2 bs evs1 m1 o He Hn Hb K1 E1 E2 E3]; subst.
  destruct o as [c|e|w]; try discriminate. injection E3 as <-.
  destruct (table_talk_ok _ _ _ _ _ _ _ _ _ K1 _ eq_refl) as (bodies & F & M).
  exists q, h, q2, bs, evs1, bodies. cbn [kernel_load kernel_end]. auto 10.
Qed.

(** ** Panics.  Without overflow checks there are none.  With them, a note segment that starts so high up that
    [p_offset + read_size] exceeds 64 bits, on a source that seeks and reads up there, is one.  Sources that refuse
    positions from 2^63 on, as files do, are safe. *)
Definition files_positions {S} (src : source S) : Prop := forall s p, 2 ^ 63 <= p -> snd (so_seek_start src s p) = None.

Lemma notes_talk_panic bld start fsz rs evs w : notes_talk bld start fsz rs evs (Panic w) ->
  w = ArithOverflow /\ bld = true.
Proof.
  intros H. remember (Panic w) as o eqn:E. induction H; try discriminate; auto.
  - destruct H3; discriminate.
  - injection E as <-. auto.
Qed.
Lemma table_talk_panic bld be off m ps c evs m' o : table_talk bld be off m ps c evs m' o -> forall w, o = Panic w ->
  w = ArithOverflow /\ bld = true /\ off = None.
Proof.
  induction 1 as [m c|m p ps c evs m' e H|m p ps c evs m' w' H|m p ps c evs m1 c1 evs2 m' o H _ IH]; intros w E; try discriminate; auto.
  injection E as ->. inversion H as [ | | |q evs1 o1 El En Eo N E1 E2 E3| | | | | ]; subst. destruct o1 as [x|x|x]; try discriminate. injection E3 as ->.
  destruct (notes_talk_panic _ _ _ _ _ _ N). auto.
Qed.
Theorem C92_panics : forall S (src : source S) bld be off highmem s m s' m' w, plausible src -> roomy src -> wf_mem m = true ->
  gelf_load src bld be off highmem s m = (s', m', Panic w) -> w = ArithOverflow /\ bld = true /\ off = None.
Proof.
  intros S src bld be off highmem s m s' m' w Hp Hr Hw H. destruct (C92_elf _ _ _ _ _ _ _ _ _ _ _ Hp Hr Hw H) as (evs & T & K).
  inversion K as [ | | | | |q h q2 bs evs1 m1 o He Hn Hb K1 E1 E2 E3]; subst.
  destruct o as [c|e|w']; try discriminate. injection E3 as ->. exact (table_talk_panic _ _ _ _ _ _ _ _ _ K1 _ eq_refl).
Qed.

Lemma talk_in {S} (src : source S) s evs s' : talk src s evs s' -> forall e, In e evs -> exists s1 s2, answers src s1 e s2.
Proof. induction 1 as [|s e s1 evs s' A T IH]; intros e' []; [subst; eauto|now apply IH]. Qed.

Lemma notes_talk_low {S} (src : source S) bld start fsz rs evs o : files_positions src -> notes_talk bld start fsz rs evs o ->
  (forall e, In e evs -> exists s1 s2, answers src s1 e s2) -> bld = true -> start + rs < 2 ^ 63 -> forall w, o <> Panic w.
Proof.
  intros Hf H. induction H; intros Hin Hb Hs w; try discriminate.
  - destruct H3; discriminate.
  - exfalso. unfold pads_fit, note_len in *. change (2 ^ 64) with 18446744073709551616 in *. change (2 ^ 63) with 9223372036854775808 in *.
    change (2 ^ 32) with 4294967296 in *. lia.
  - apply IHnotes_talk; [|exact Hb|].
    + intros e He. apply Hin. right. apply in_or_app. right. now right.
    + specialize (H3 Hb). destruct (N.lt_ge_cases (start + (rs + note_len h)) (2 ^ 63)) as [Hl|Hl]; [exact Hl|exfalso].
      destruct (Hin (SoughtTo ((start + (rs + note_len h)) mod 2 ^ 64) (Some q))) as (s1 & s2 & A).
      { right. apply in_or_app. right. now left. }
      rewrite N.mod_small in A by exact H3. cbn in A. specialize (Hf s1 _ Hl). rewrite A in Hf. discriminate.
Qed.
Lemma table_talk_low {S} (src : source S) bld be off m ps c evs m' o : files_positions src -> table_talk bld be off m ps c evs m' o ->
  (forall e, In e evs -> exists s1 s2, answers src s1 e s2) -> forall w, o <> Panic w.
Proof.
  intros Hf H. induction H as [m c|m p ps c evs m' e H|m p ps c evs m' w' H|m p ps c evs m1 c1 evs2 m' o H _ IH]; intros Hin w; try discriminate.
  - intros E. injection E as ->. inversion H as [ | | |q evs1 o1 El En Eo N E1 E2 E3| | | | | ]; subst. destruct o1 as [x|x|x]; try discriminate. injection E3 as ->.
    destruct (notes_talk_panic _ _ _ _ _ _ N) as (-> & Hb).
    assert (Hlow : ph_offset p < 2 ^ 63).
    { destruct (N.lt_ge_cases (ph_offset p) (2 ^ 63)) as [Hl|Hl]; [exact Hl|exfalso].
      destruct (Hin (SoughtTo (ph_offset p) (Some q))) as (s1 & s2 & A); [now left|]. cbn in A. specialize (Hf s1 _ Hl). rewrite A in Hf. discriminate. }
    apply (notes_talk_low src _ _ _ _ _ _ Hf N) with (w := ArithOverflow); [|exact Hb|rewrite N.add_0_r; exact Hlow|reflexivity].
    intros e He. apply Hin. now right.
  - apply IH. intros e He. apply Hin. apply in_or_app. now right.
Qed.
Theorem C92_files_never_panic : forall S (src : source S) bld be off highmem s m s' m' o, plausible src -> roomy src -> files_positions src ->
  wf_mem m = true -> gelf_load src bld be off highmem s m = (s', m', o) -> forall w, o <> Panic w.
Proof.
  intros S src bld be off highmem s m s' m' o Hp Hr Hf Hw H w. destruct (C92_elf _ _ _ _ _ _ _ _ _ _ _ Hp Hr Hw H) as (evs & T & K).
  inversion K as [ | | | | |q h q2 bs evs1 m1 o1 He Hn Hb K1 E1 E2 E3]; subst; try discriminate.
  pose proof (table_talk_low src _ _ _ _ _ _ _ _ _ Hf K1) as L.
  assert (Hin : forall e, In e evs1 -> exists s1 s2, answers src s1 e s2).
  { intros e Hin. apply (talk_in src _ _ _ T). right. right. right. apply in_or_app. now right. }
  specialize (L Hin). destruct o1 as [c|e|w']; try discriminate. intros E. injection E as ->. exact (L w eq_refl).
Qed.

(** ** C93: a load is a function of guest memory and the answers it gets.  A second source that gives the same answers
    to the same questions leads to the same report and the very same guest memory; nothing else of the first source, its
    past or the history of the process enters. *)
Definition same_room {S1 S2} (src1 : source S1) (src2 : source S2) : Prop := forall s1 s2, so_len src1 s1 = so_len src2 s2.

Section Replay.
Context {S1 S2 : Type} (src1 : source S1) (src2 : source S2).
Hypothesis Hroom : same_room src1 src2.

Definition follows {E A} (x1 : @G S1 E A) (x2 : @G S2 E A) : Prop := forall s1 m s1' m' o, x1 s1 m = (s1', m', o) ->
  exists evs, talk src1 s1 evs s1' /\ forall s2 s2', talk src2 s2 evs s2' -> x2 s2 m = (s2', m', o).

Lemma talk_split {S} (src : source S) e1 : forall s e2 s', talk src s (e1 ++ e2) s' -> exists s1, talk src s e1 s1 /\ talk src s1 e2 s'.
Proof.
  induction e1 as [|e e1 IH]; intros s e2 s' H; [exists s; split; [apply talk_nil|exact H]|].
  inversion H as [|? ? s1 ? ? A T]; subst. destruct (IH _ _ _ T) as (s2 & T1 & T2). exists s2. split; [exact (talk_cons _ _ _ _ _ _ A T1)|exact T2].
Qed.
Lemma follows_gpure {E A} (x : outcome E A) : follows (gpure x) (gpure x).
Proof. intros s1 m s1' m' o H. injection H as <- <- <-. exists []. split; [apply talk_nil|]. intros s2 s2' T. inversion T; subst. reflexivity. Qed.
Lemma follows_gret {E A} (a : A) : follows (@gret S1 E A a) (gret a).
Proof. exact (follows_gpure (Ok a)). Qed.
Lemma follows_gfail {E A} (e : E) : follows (@gfail S1 E A e) (gfail e).
Proof. exact (follows_gpure (Err e)). Qed.
Lemma follows_bind {E A B} (x1 : @G S1 E A) x2 (f1 : A -> @G S1 E B) f2 :
  follows x1 x2 -> (forall a, follows (f1 a) (f2 a)) -> follows (gbind x1 f1) (gbind x2 f2).
Proof.
  intros Hx Hf s1 m s1' m' o H. unfold gbind in H. destruct (x1 s1 m) as [[t1 n1] [a|e|w]] eqn:E1;
    destruct (Hx _ _ _ _ _ E1) as (evs & T & R).
  - destruct (Hf a _ _ _ _ _ H) as (evs2 & T2 & R2). exists (evs ++ evs2). split; [exact (talk_app src1 _ _ _ _ _ T T2)|].
    intros s2 s2' TT. destruct (talk_split _ _ _ _ _ TT) as (t2 & TA & TB). unfold gbind. rewrite (R _ _ TA). exact (R2 _ _ TB).
  - injection H as <- <- <-. exists evs. split; [exact T|]. intros s2 s2' TT. unfold gbind. now rewrite (R _ _ TT).
  - injection H as <- <- <-. exists evs. split; [exact T|]. intros s2 s2' TT. unfold gbind. now rewrite (R _ _ TT).
Qed.
Lemma follows_gio {E A} (op1 : S1 -> S1 * option A) op2 (e : E) (ev : option A -> event) :
  (forall s got s', op1 s = (s', got) -> answers src1 s (ev got) s') -> (forall s got s', answers src2 s (ev got) s' -> op2 s = (s', got)) ->
  follows (gio op1 e) (gio op2 e).
Proof.
  intros A1 A2 s1 m s1' m' o H. unfold gio in H. destruct (op1 s1) as [t1 got] eqn:E1. exists [ev got].
  assert (t1 = s1') as -> by (destruct got; injection H as <- _ _; reflexivity).
  split; [exact (talk_cons _ _ _ _ _ _ (A1 _ _ _ E1) (talk_nil _ _))|].
  intros s2 s2' T. inversion T as [|? ? t2 ? ? Q T']; subst. inversion T'; subst. apply A2 in Q. unfold gio. rewrite Q.
  destruct got; injection H as <- <-; reflexivity.
Qed.
Lemma follows_start {E} p (e : E) : follows (gio (fun s => so_seek_start src1 s p) e) (gio (fun s => so_seek_start src2 s p) e).
Proof. apply (follows_gio _ _ _ (SoughtTo p)); auto. Qed.
Lemma follows_end {E} (e : E) : follows (gio (so_seek_end src1) e) (gio (so_seek_end src2) e).
Proof. apply (follows_gio _ _ _ SoughtEnd); auto. Qed.
Lemma follows_cur {E} d (e : E) : follows (gio (fun s => so_seek_cur src1 s d) e) (gio (fun s => so_seek_cur src2 s d) e).
Proof. apply (follows_gio _ _ _ (SoughtBy d)); auto. Qed.
Lemma follows_exact {E} n (e : E) : follows (gio (fun s => so_read_exact src1 s n) e) (gio (fun s => so_read_exact src2 s n) e).
Proof. apply (follows_gio _ _ _ (ReadAll n)); auto. Qed.
Lemma follows_header {E} (e : E) : follows (gio (gread_header src1) e) (gio (gread_header src2) e).
Proof.
  intros s1 m s1' m' o H. unfold gio, gread_header in H. change (size setup_header) with 123 in H. destruct (so_read_volatile src1 s1 123) as [t1 got] eqn:E1.
  exists [ReadSome 123 got].
  assert (t1 = s1') as -> by (destruct got; injection H as <- _ _; reflexivity).
  split; [exact (talk_cons _ _ _ _ _ _ (E1 : answers src1 s1 (ReadSome 123 got) s1') (talk_nil _ _))|].
  intros s2 s2' T. inversion T as [|? ? t2 ? ? A T']; subst. inversion T'; subst. cbn in A. unfold gio, gread_header. change (size setup_header) with 123. rewrite A.
  destruct got; injection H as <- <-; reflexivity.
Qed.

Lemma follows_loop be fuel : forall cur left total m s1 s1' m' o, gread_loop src1 be fuel s1 m cur left total = (s1', m', o) ->
  exists evs, talk src1 s1 evs s1' /\ forall s2 s2', talk src2 s2 evs s2' -> gread_loop src2 be fuel s2 m cur left total = (s2', m', o).
Proof.
  induction fuel as [|fuel IH]; intros cur left total m s1 s1' m' o H; cbn [gread_loop] in H |- *.
  { injection H as <- <- <-. exists []. split; [apply talk_nil|]. intros s2 s2' T. inversion T; subst. reflexivity. }
  destruct (find_region m cur) as [rg|].
  2:{ injection H as <- <- <-. exists []. split; [apply talk_nil|]. intros s2 s2' T. inversion T; subst. reflexivity. }
  cbv zeta in H. cbv zeta. remember (N.min (r_base rg + r_len rg - cur) left) as n eqn:En. clear En.
  destruct (so_read_retry src1 s1 n) as [t1 [bs|]] eqn:E1.
  2:{ injection H as -> <- <-. exists [ReadGuest n None]. split; [exact (t_guest src1 _ _ _ _ _ _ E1 (talk_nil _ _))|].
      intros s2 s2' T. inversion T as [|x1 x2 t2 x3 x4 Q T']; subst. inversion T'; subst. cbn in Q. now rewrite Q. }
  assert (Hstop : forall oo, match be with TryAccess => lenN bs | GetSlices => n end = 0 /\ oo = Ok total \/
      match be with TryAccess => lenN bs | GetSlices => n end <> 0 /\
      (match be with TryAccess => lenN bs | GetSlices => n end = left /\ oo = Ok (total + lenN bs) \/
       match be with TryAccess => lenN bs | GetSlices => n end <> left /\ next_addr cur (match be with TryAccess => lenN bs | GetSlices => n end) = None /\ oo = Err tt) ->
    (t1, mem_store m cur bs, oo) = (s1', m', o) ->
    exists evs, talk src1 s1 evs s1' /\ forall s2 s2', talk src2 s2 evs s2' ->
      match so_read_retry src2 s2 n with
      | (s', None) => (s', m, Err tt)
      | (s', Some bs) =>
          if match be with TryAccess => lenN bs | GetSlices => n end =? 0 then (s', mem_store m cur bs, Ok total)
          else if match be with TryAccess => lenN bs | GetSlices => n end =? left then (s', mem_store m cur bs, Ok (total + lenN bs))
          else match next_addr cur (match be with TryAccess => lenN bs | GetSlices => n end) with
               | None => (s', mem_store m cur bs, Err tt)
               | Some cur' => gread_loop src2 be fuel s' (mem_store m cur bs) cur' (left - match be with TryAccess => lenN bs | GetSlices => n end) (total + lenN bs)
               end
      end = (s2', m', o)).
  { intros oo Hc E. injection E as <- <- <-. exists [ReadGuest n (Some bs)]. split; [exact (t_guest src1 _ _ _ _ _ _ E1 (talk_nil _ _))|].
    intros s2 s2' T. inversion T as [|x1 x2 t2 x3 x4 Q T']; subst. inversion T'; subst. cbn in Q. rewrite Q.
    destruct Hc as [(H1 & ->)|(H1 & [(H2 & ->)|(H2 & H3 & ->)])].
    - rewrite H1. reflexivity.
    - rewrite (proj2 (N.eqb_neq _ _) H1), (proj2 (N.eqb_eq _ _) H2). reflexivity.
    - rewrite (proj2 (N.eqb_neq _ _) H1), (proj2 (N.eqb_neq _ _) H2), H3. reflexivity. }
  destruct (N.eqb_spec (match be with TryAccess => lenN bs | GetSlices => n end) 0) as [H1|H1]. { eapply Hstop; [left; auto|exact H]. }
  destruct (N.eqb_spec (match be with TryAccess => lenN bs | GetSlices => n end) left) as [H2|H2]. { eapply Hstop; [right; auto|exact H]. }
  destruct (next_addr cur (match be with TryAccess => lenN bs | GetSlices => n end)) as [cur'|] eqn:H3.
  2:{ eapply Hstop; [right; auto|exact H]. }
  destruct (IH _ _ _ _ _ _ _ _ H) as (evs & T & R). exists (ReadGuest n (Some bs) :: evs). split; [exact (t_guest src1 _ _ _ _ _ _ E1 T)|].
  intros s2 s2' TT. inversion TT as [|x1 x2 t2 x3 x4 Q T']; subst. cbn in Q. rewrite Q.
  rewrite (proj2 (N.eqb_neq _ _) H1), (proj2 (N.eqb_neq _ _) H2), H3. exact (R _ _ T').
Qed.

Lemma follows_copy be a n e : follows (gcopy src1 be a n e) (gcopy src2 be a n e).
Proof.
  intros s1 m s1' m' o H. unfold gcopy in H.
  destruct (gread_exact_volatile_from src1 be s1 m a n) as [[t1 m1] o1] eqn:E1.
  assert (t1 = s1' /\ m1 = m') as (-> & ->) by (destruct o1; injection H as <- <- _; auto).
  assert (Z : exists evs, talk src1 s1 evs s1' /\ forall s2 s2', talk src2 s2 evs s2' -> gread_exact_volatile_from src2 be s2 m a n = (s2', m', o1)).
  { assert (Z : (be = GetSlices /\ n = 0) \/ forall S (src : source S) s, gread_exact_volatile_from src be s m a n =
      match gread_loop src be (Datatypes.S (so_len src s + length (regions m))) s m a n 0 with
      | (s', m', Ok k) => (s', m', if k =? n then Ok tt else Err tt)
      | (s', m', Err e) => (s', m', Err e)
      | (s', m', Panic p) => (s', m', Panic p)
      end).
    { destruct be; [right; reflexivity|]. destruct n; [left; auto|right; reflexivity]. }
    destruct Z as [(-> & ->)|Z].
    - cbn in E1. injection E1 as <- <- <-. exists []. split; [apply talk_nil|]. intros s2 s2' T. inversion T; subst. reflexivity.
    - rewrite Z in E1. destruct (gread_loop src1 _ _ _ _ _ _ _) as [[t1 m2] o2] eqn:El. destruct (follows_loop _ _ _ _ _ _ _ _ _ _ El) as (evs & T & R).
      exists evs. split; [destruct o2; injection E1 as -> _ _; exact T|]. intros s2 s2' TT. rewrite Z, (Hroom s1 s2) in *. rewrite (R _ _ TT).
      destruct o2; injection E1 as _ -> ->; reflexivity. }
  destruct Z as (evs & T & R). exists evs. split; [exact T|]. intros s2 s2' TT. unfold gcopy. rewrite (R _ _ TT). destruct o1; injection H as <-; reflexivity.
Qed.

Ltac fol := repeat first
  [ apply follows_gret | apply follows_gfail | apply follows_gpure | apply follows_start | apply follows_end | apply follows_cur
  | apply follows_exact | apply follows_header | apply follows_copy
  | apply follows_bind; [|intros ?] ].

Lemma follows_notes bld phdr fuel : forall rs nh, follows (gnote_loop src1 bld fuel phdr rs nh) (gnote_loop src2 bld fuel phdr rs nh).
Proof.
  induction fuel as [|fuel IH]; intros rs nh; cbn [gnote_loop]; [fol|].
  destruct (negb (rs <? phdr_get "p_filesz" phdr)); [fol|]. fol.
  - destruct ((nhdr_get "n_type" a =? XEN_ELFNOTE_PHYS32_ENTRY) && (nhdr_get "n_namesz" a =? PVH_NOTE_STR_SZ)); fol.
  - destruct a0; [fol|]. fol. destruct ((u32_max <? a0) || (u32_max <? a1)); [fol|]. fol. apply IH.
Qed.
Lemma follows_note bld phdr : follows (gparse_elf_note src1 bld phdr) (gparse_elf_note src2 bld phdr).
Proof.
  unfold gparse_elf_note. apply follows_bind; [fol|intros _]. apply follows_bind.
  - intros s1 m s1' m' o H. destruct (follows_notes bld phdr _ _ _ _ _ _ _ _ H) as (evs & T & R). exists evs. split; [exact T|].
    intros s2 s2' TT. rewrite <- (Hroom s1 s2). exact (R _ _ TT).
  - intros res. cbv zeta. destruct (phdr_get "p_filesz" phdr <=? fst res); [fol|]. fol. destruct (nhdr_get "n_descsz" (snd res) <? 4); fol.
Qed.
Lemma follows_phdrs n : follows (gread_phdrs src1 n) (gread_phdrs src2 n).
Proof. induction n as [|n IH]; cbn [gread_phdrs]; fol. exact IH. Qed.
Lemma follows_load bld be off ps : forall kend cap, follows (gload_phdrs src1 bld be off ps kend cap) (gload_phdrs src2 bld be off ps kend cap).
Proof.
  induction ps as [|p ps IH]; intros kend cap; cbn [gload_phdrs]; [fol|].
  destruct (negb (phdr_get "p_type" p =? PT_LOAD) || (phdr_get "p_filesz" p =? 0)).
  - apply follows_bind; [|intros c; apply IH]. destruct (phdr_get "p_type" p =? PT_NOTE); [|fol]. destruct off; [fol|apply follows_note].
  - fol. apply IH.
Qed.
Lemma follows_elf bld be off h : follows (gelf_load src1 bld be off h) (gelf_load src2 bld be off h).
Proof.
  unfold gelf_load. fol.
  - destruct h as [x|]; [|fol]. destruct (ehdr_get "e_entry" a0 <? x); fol.
  - apply follows_phdrs.
  - apply follows_load.
Qed.
Lemma follows_bz be off h : follows (gbz_load src1 be off h) (gbz_load src2 be off h).
Proof.
  unfold gbz_load. fol. destruct (negb (hdr_get "header" a1 =? 0x53726448)); [fol|].
  destruct ((hdr_get "version" a1 <? 0x0200) || (N.land (hdr_get "loadflags" a1) 1 =? 0)); [fol|]. cbv zeta. fol.
  destruct (match h with Some h => hdr_get "code32_start" a1 <? h | None => false end); fol.
Qed.
Lemma follows_pe a be off h : follows (gpe_load src1 a be off h) (gpe_load src2 a be off h).
Proof.
  unfold gpe_load. fol. destruct (negb (magic_ok a a2)); [fol|].
  destruct (match off with Some k => negb (k mod 0x200000 =? 0) | None => false end); fol.
Qed.
Lemma follows_dtb be addr : follows (gload_dtb src1 be addr) (gload_dtb src2 be addr).
Proof. unfold gload_dtb. fol. destruct (0x200000 <? a); fol. Qed.
End Replay.

(** [x] on the first source and [y] on the second. *)
Definition replays {S1 S2 A} (src1 : source S1) (src2 : source S2) (x : @G S1 lerror A) (y : @G S2 lerror A) : Prop :=
  forall s1 m s1' m' o, x s1 m = (s1', m', o) ->
  exists evs, talk src1 s1 evs s1' /\ forall s2 s2', talk src2 s2 evs s2' -> y s2 m = (s2', m', o).

Theorem C93_replay : forall S1 S2 (src1 : source S1) (src2 : source S2), same_room src1 src2 ->
  (forall bld be off h, replays src1 src2 (gelf_load src1 bld be off h) (gelf_load src2 bld be off h)) /\
  (forall be off h, replays src1 src2 (gbz_load src1 be off h) (gbz_load src2 be off h)) /\
  (forall a be off h, replays src1 src2 (gpe_load src1 a be off h) (gpe_load src2 a be off h)) /\
  (forall be addr, replays src1 src2 (gload_dtb src1 be addr) (gload_dtb src2 be addr)).
Proof.
  intros S1 S2 src1 src2 R. split; [|split; [|split]].
  - intros bld be off h. exact (follows_elf src1 src2 R bld be off h).
  - intros be off h. exact (follows_bz src1 src2 R be off h).
  - intros a be off h. exact (follows_pe src1 src2 R a be off h).
  - intros be addr. exact (follows_dtb src1 src2 R be addr).
Qed.

(** ** Sources to which the theorems apply: one that follows a script, whatever is in it.  Questions the script does not
    foresee get an error. *)
Definition fits (bs : bytes) (ok : bool) : option bytes := if ok then Some bs else None.
Definition scripted : source (list event) := mkSource (list event) (fun _ => N.to_nat (2 ^ 64))
  (fun s p => match s with SoughtTo q got :: r => if q =? p then (r, got) else (s, None) | _ => (s, None) end)
  (fun s => match s with SoughtEnd (Some n) :: r => (r, if n <? 2 ^ 64 then Some n else None) | _ => (s, None) end)
  (fun s d => match s with SoughtBy e got :: r => if (e =? d)%Z then (r, got) else (s, None) | _ => (s, None) end)
  (fun s n => match s with ReadAll k (Some bs) :: r => (r, fits bs (lenN bs =? n)) | _ => (s, None) end)
  (fun s n => match s with ReadSome k (Some bs) :: r => (r, fits bs (lenN bs <=? n)) | _ => (s, None) end)
  (fun s n => match s with ReadGuest k (Some bs) :: r => (r, fits bs (lenN bs <=? n)) | _ => (s, None) end).

Example C90_C93_hypotheses : plausible scripted /\ roomy scripted /\ same_room scripted scripted.
Proof.
  split; [|split].
  - unfold plausible, scripted, fits. cbn [so_read_exact so_read_volatile so_read_retry so_seek_end].
    split; [|split; [|split]]; [intros s n s' bs|intros s n s' bs|intros s n s' bs|intros s s' p0];
      (destruct s as [|[got|p got|d got|k got|k got|k got] s]; try discriminate; destruct got as [x|]; try discriminate).
    + destruct (N.eqb_spec (lenN x) n); [|discriminate]. intros E. injection E as _ <-. assumption.
    + destruct (N.leb_spec (lenN x) n); [|discriminate]. intros E. injection E as _ <-. assumption.
    + destruct (N.leb_spec (lenN x) n); [|discriminate]. intros E. injection E as _ <-. assumption.
    + destruct (N.ltb_spec x (2 ^ 64)); [|discriminate]. intros E. injection E as _ <-. assumption.
  - intros s. cbn [so_len scripted]. rewrite N2Nat.id. apply N.le_refl.
  - intros s1 s2. unfold scripted. cbn [so_len]. apply eq_refl.
Qed.

(** An arm64 image that is rewritten between the look at its header and the copy: the load succeeds, at the place the
    header asked for, with 0x41 all over. *)
Definition two_faced : list event :=
  [SoughtEnd (Some 70); SoughtTo 0 (Some 0);
   ReadAll 64 (Some (zeros 8 ++ le_enc 8 0x1000 ++ le_enc 8 70 ++ zeros 32 ++ le_enc 4 0x644d5241 ++ zeros 4));
   SoughtTo 0 (Some 0); ReadGuest 70 (Some (repeat x41 30)); ReadGuest 40 (Some (repeat x41 40))].
Definition some_memory : gmem := mkMem [mkRegion 0x200000 0x10000] (fun _ => x00).
Example C90_two_faced :
  match gpe_load scripted Aarch64 TryAccess (Some 0x200000) None two_faced some_memory with
  | (s', m', o) => s' = [] /\ o = Ok (mkResult 0x201000 0x201046 None PvhEntryIgnored) /\
      gm_byte m' 0x201000 = x41 /\ gm_byte m' 0x201045 = x41 /\ gm_byte m' 0x201046 = x00
  end.
Proof. lazy. auto 10. Qed.
(** The same with an end of file in the middle. *)
Definition cut_short : list event := firstn 5 two_faced ++ [ReadGuest 40 (Some [])].
Example C90_cut_short :
  match gpe_load scripted Aarch64 TryAccess (Some 0x200000) None cut_short some_memory with
  | (s', m', o) => s' = [] /\ o = Err (LPe PeReadKernelImage) /\
      gm_byte m' 0x201000 = x41 /\ gm_byte m' 0x20101d = x41 /\ gm_byte m' 0x20101e = x00
  end.
Proof. lazy. auto 10. Qed.

(** A bzImage of 2048 bytes whose setup part shrinks after the header was read: the header heard counts. *)
Definition shrinking : list event :=
  [SoughtEnd (Some 2560); SoughtTo 0x1f1 (Some 0x1f1);
   ReadSome 123 (Some ([x03] ++ zeros 16 ++ le_enc 4 0x53726448 ++ le_enc 2 0x204 ++ zeros 9 ++ [x01] ++ zeros 2 ++ le_enc 4 0x200000));
   SoughtTo 2048 (Some 7); ReadGuest 512 (Some (repeat x42 512))].
Example C91_shrinking :
  match gbz_load scripted GetSlices None (Some 0x100000) shrinking some_memory with
  | (s', m', Ok res) => s' = [] /\ kernel_load res = 0x200000 /\ kernel_end res = 0x200200 /\
      gm_byte m' 0x200000 = x42 /\ gm_byte m' 0x2001ff = x42 /\ gm_byte m' 0x200200 = x00
  | _ => False
  end.
Proof. lazy. auto 10. Qed.

(** An ELF image with one segment and one note. *)
Definition a_header (n : N) : bytes :=
  [x7f; x45; x4c; x46; x02; x01] ++ zeros 18 ++ le_enc 8 0x200010 ++ le_enc 8 64 ++ zeros 14 ++ le_enc 2 56 ++ le_enc 2 n ++ zeros 6.
Definition an_entry (ty offset paddr filesz memsz : N) : bytes :=
  le_enc 4 ty ++ zeros 4 ++ le_enc 8 offset ++ zeros 8 ++ le_enc 8 paddr ++ le_enc 8 filesz ++ le_enc 8 memsz ++ zeros 8.
Definition good_elf : list event :=
  [SoughtTo 0 (Some 0); ReadAll 64 (Some (a_header 2)); SoughtTo 64 (Some 64);
   ReadAll 56 (Some (an_entry 1 0x1000 0x200000 16 32)); ReadAll 56 (Some (an_entry 4 0x2000 0 20 0));
   SoughtTo 0x1000 (Some 0); ReadGuest 16 (Some (repeat x43 16));
   SoughtTo 0x2000 (Some 0); ReadAll 12 (Some (le_enc 4 4 ++ le_enc 4 4 ++ le_enc 4 18)); ReadAll 4 (Some [x58; x65; x6e; x00]);
   SoughtBy 0 (Some 0); ReadAll 4 (Some (le_enc 4 0xabc))].
Example C92_good_elf :
  match gelf_load scripted true GetSlices None None good_elf some_memory with
  | (s', m', o) => s' = [] /\ o = Ok (mkResult 0x200010 0x200020 None (PvhEntryPresent 0xabc)) /\
      gm_byte m' 0x200000 = x43 /\ gm_byte m' 0x20000f = x43 /\ gm_byte m' 0x200010 = x00
  end.
Proof. lazy. auto 10. Qed.

(** The panic of [C92_panics] does happen: a note segment 16 bytes below 2^64 on a source that goes along with it. *)
Definition liar : list event :=
  [SoughtTo 0 (Some 0); ReadAll 64 (Some (a_header 1)); SoughtTo 64 (Some 64); ReadAll 56 (Some (an_entry 4 (2 ^ 64 - 16) 0 100 0));
   SoughtTo (2 ^ 64 - 16) (Some 0); ReadAll 12 (Some (le_enc 4 4 ++ le_enc 4 4 ++ le_enc 4 1))].
Example C92_never_panics_refuted :
  snd (gelf_load scripted true GetSlices None None liar some_memory) = Panic ArithOverflow.
Proof. lazy. reflexivity. Qed.
(** Without overflow checks the same source just gets the next question, for position 4. *)
Example C92_release_goes_on :
  match gelf_load scripted false GetSlices None None (liar ++ [SoughtTo 4 None]) some_memory with
  | (s', _, o) => s' = [] /\ o = Err (LElf SeekNoteHeader)
  end.
Proof. lazy. auto. Qed.

(** A source that refuses high positions, for [C92_files_never_panic]. *)
Definition low_only : source (list event) := mkSource (list event) (so_len scripted)
  (fun s p => if p <? 2 ^ 63 then so_seek_start scripted s p else (s, None))
  (so_seek_end scripted) (so_seek_cur scripted) (so_read_exact scripted) (so_read_volatile scripted) (so_read_retry scripted).
Example C92_files_hypotheses : plausible low_only /\ roomy low_only /\ files_positions low_only /\
  snd (gelf_load low_only true GetSlices None None liar some_memory) = Err (LElf SeekNoteHeader) /\
  snd (gelf_load low_only true GetSlices None None good_elf some_memory) = Ok (mkResult 0x200010 0x200020 None (PvhEntryPresent 0xabc)).
Proof.
  split; [exact (proj1 C90_C93_hypotheses)|]. split; [exact (proj1 (proj2 C90_C93_hypotheses))|]. split.
  - intros s p H. unfold low_only. cbn [so_seek_start]. rewrite (proj2 (N.ltb_ge _ _) H). reflexivity.
  - split; lazy; reflexivity.
Qed.

(** A file that is rewritten all the time: its contents are a function of time, which passes with every operation. *)
Definition changing (contents : nat -> bytes) : source (nat * N) := mkSource (nat * N) (fun _ => N.to_nat (2 ^ 64))
  (fun s p => ((S (fst s), p), if p <? 2 ^ 63 then Some p else None))
  (fun s => let p := lenN (contents (fst s)) in ((S (fst s), p), if p <? 2 ^ 63 then Some p else None))
  (fun s d => let q := (Z.of_N (snd s) + d)%Z in
     ((S (fst s), Z.to_N q), if ((0 <=? q) && (q <? 2 ^ 63))%Z then Some (Z.to_N q) else None))
  (fun s n => if snd s + n <=? lenN (contents (fst s)) then ((S (fst s), snd s + n), Some (slice (contents (fst s)) (snd s) n))
              else ((S (fst s), snd s), None))
  (fun s n => let bs := slice (contents (fst s)) (snd s) n in ((S (fst s), snd s + lenN bs), Some bs))
  (fun s n => let bs := slice (contents (fst s)) (snd s) n in ((S (fst s), snd s + lenN bs), Some bs)).
Example C90_C92_changing : forall contents, plausible (changing contents) /\ roomy (changing contents) /\ files_positions (changing contents).
Proof.
  intros c. split; [|split].
  - unfold plausible, changing. cbn [so_read_exact so_read_volatile so_read_retry so_seek_end]. cbv zeta. split; [|split; [|split]].
    + intros [t p] n s' bs. cbn [fst snd]. destruct (N.leb_spec (p + n) (lenN (c t))); [|discriminate]. intros E. apply (f_equal snd) in E. cbn [snd] in E.
      injection E as <-. rewrite lenN_slice. lia.
    + intros [t p] n s' bs E. apply (f_equal snd) in E. cbn [fst snd] in E. injection E as <-. rewrite lenN_slice. lia.
    + intros [t p] n s' bs E. apply (f_equal snd) in E. cbn [fst snd] in E. injection E as <-. rewrite lenN_slice. lia.
    + intros [t p] s' q. cbn [fst snd]. destruct (N.ltb_spec (lenN (c t)) (2 ^ 63)); [|discriminate]. intros E. apply (f_equal snd) in E. cbn [snd] in E.
      injection E as <-. eapply N.lt_trans; [eassumption|]. reflexivity.
  - intros s. unfold changing. cbn [so_len]. rewrite N2Nat.id. apply N.le_refl.
  - intros s p H. unfold changing. cbn [so_seek_start snd]. rewrite (proj2 (N.ltb_ge _ _) H). reflexivity.
Qed.
