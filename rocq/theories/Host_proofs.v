(** * Host_proofs: how the width of [usize] shows. *)
From Verif Require Import Base Base_proofs Io Mem SpecMem Mem_proofs Layout Loader Elf BzImage SpecFile SpecElf SpecBz File_proofs
  Align_proofs SpecAbi Layout_proofs Elf_proofs Elf_proofs2 Bz_proofs Text Cmdline BootParams Host SpecHost.
Open Scope loader_scope.

Section Width.
Context (usz : N) (Husz : pointer_width usz).

Lemma usz_ge : 4294967296 <= usz.
Proof. destruct Husz as [-> | ->]; [change (2 ^ 32) with 4294967296|change (2 ^ 64) with 18446744073709551616]; lia. Qed.
Lemma as_usize_small x : x < usz -> as_usize usz x = x.
Proof. intros H. unfold as_usize. apply N.mod_small. exact H. Qed.
Lemma as_usize_u32 x : x < 2 ^ 32 -> as_usize usz x = x.
Proof. intros H. apply as_usize_small. change (2 ^ 32) with 4294967296 in H. pose proof usz_ge. lia. Qed.

(** ** comparing computations *)
Definition hagree {A} (P : Prop) (x y : L A) (r : reader) (m : gmem) : Prop :=
  x r m = y r m \/ (P /\ exists r' m', x r m = (r', m', Err (LElf ElfOverflow)) /\ rd_same_env r r').

Lemma hagree_refl {A} P (x : L A) r m : hagree P x x r m.
Proof. left. reflexivity. Qed.
Lemma hagree_impl {A} (P Q : Prop) (x y : L A) r m : (P -> Q) -> hagree P x y r m -> hagree Q x y r m.
Proof. intros H [E|(p & r' & m' & E)]; [left; exact E|right; split; [auto|eauto]]. Qed.
Lemma hagree_bind {A B} P (x y : L A) (f g : A -> L B) r m :
  hagree P x y r m ->
  (forall a r' m', y r m = (r', m', Ok a) -> rd_same_env r r' /\ hagree P (f a) (g a) r' m') ->
  hagree P (lbind x f) (lbind y g) r m.
Proof.
  intros [E|(p & r' & m' & E & He)] Hk; unfold hagree, lbind.
  - rewrite E. destruct (y r m) as [[r' m'] [a|e|q]] eqn:Ey; [|left; reflexivity|left; reflexivity].
    destruct (Hk a r' m' eq_refl) as [He [E'|(p & r2 & m2 & E' & He')]]; [left; exact E'|].
    right. split; [exact p|]. exists r2, m2. split; [exact E'|exact (rd_same_env_trans _ _ _ He He')].
  - right. split; [exact p|]. exists r', m'. rewrite E. auto.
Qed.

(** ** the ELF notes *)
Lemma usize_chain a b c d :
  match usize_add usz a b with
  | Some x => match usize_add usz x c with Some y => usize_add usz y d | None => None end
  | None => None
  end = if a + b + c + d <? usz then Some (a + b + c + d) else None.
Proof.
  unfold usize_add. destruct (N.ltb_spec (a + b) usz) as [H1|H1].
  - destruct (N.ltb_spec (a + b + c) usz) as [H2|H2]; [reflexivity|].
    destruct (N.ltb_spec (a + b + c + d) usz); [lia|reflexivity].
  - destruct (N.ltb_spec (a + b + c + d) usz); [lia|reflexivity].
Qed.

Section Notes.
Context (bld : build) (b b' f : bytes) (start fsz : N).
Hypothesis Hs : phdr_get "p_offset" b = start.
Hypothesis Hs' : phdr_get "p_offset" b' = start.
Hypothesis Hz : as_usize usz (phdr_get "p_filesz" b) = fsz.
Hypothesis Hz' : phdr_get "p_filesz" b' = fsz.
Hypothesis Hlen : lenN f < 2 ^ 63.
Let far : Prop := exists x, note_reach f start fsz x /\ usz <= x.

Lemma host_note_loop_agree fuel : forall rs nh r m,
  rd_data r = f -> rd_pos r = start + rs -> note_reach f start fsz rs ->
  hagree far (host_note_loop usz bld fuel b rs nh) (note_loop bld fuel b' rs nh) r m.
Proof.
  induction fuel as [|fuel IH]; intros rs nh r m Hd Hp Hreach; [apply hagree_refl|].
  unfold hagree. cbn [host_note_loop note_loop]. rewrite Hz, Hz'.
  destruct (N.ltb_spec rs fsz) as [Hlt|Hge]; cbn [negb]; [|left; reflexivity].
  rewrite !lbind_lio. change (size Elf64_Nhdr) with 12.
  destruct (read_exact_cases r 12) as [(r1 & E1 & _)|[E1 Hin]]; rewrite E1; [left; reflexivity|].
  rewrite Hd, Hp in *. set (r1 := rd_step r (start + rs + 12)).
  rewrite !(nhdr_type f), !(nhdr_namesz f), !(nhdr_descsz f) by assumption.
  rewrite (as_usize_u32 (u32at f (start + rs))) by apply u32at_lt.
  unfold XEN_ELFNOTE_PHYS32_ENTRY, PVH_NOTE_STR_SZ, ELFNOTE_ALIGN.
  pose proof (u32at_lt f (start + rs)) as Hn1. pose proof (u32at_lt f (start + rs + 4)) as Hn2.
  pose proof (pad4_spec (u32at f (start + rs))) as (Hq1 & Hq1' & _).
  pose proof (pad4_spec (u32at f (start + rs + 4))) as (Hq2 & Hq2' & _).
  change (2 ^ 32) with 4294967296 in Hn1, Hn2. change (2 ^ 63) with 9223372036854775808 in Hlen.
  set (nhd := slice f (start + rs) 12).
  set (p1 := pad4 (u32at f (start + rs))) in *. set (p2 := pad4 (u32at f (start + rs + 4))) in *.
  match goal with |- lbind ?x ?k r1 m = lbind ?x ?k' r1 m \/ _ =>
    cut (hagree far (lbind x k) (lbind x k') r1 m)
  end.
  { intros [E|(p & r' & m' & E & He)]; [left; exact E|right]. split; [exact p|]. exists r', m'. split; [exact E|].
    exact (rd_same_env_trans _ _ _ (rd_same_env_step r (start + rs + 12)) He). }
  apply hagree_bind; [apply hagree_refl|]. intros found r2 m2 Hfound.
  assert (Henv2 : rd_same_env r1 r2 /\ m2 = m).
  { destruct ((u32at f (start + rs + 8) =? 18) && (u32at f (start + rs) =? 4)).
    - rewrite lbind_lio in Hfound. destruct (read_exact_cases r1 4) as [(r3 & E3 & _)|[E3 _]]; rewrite E3 in Hfound.
      + discriminate Hfound.
      + unfold lret in Hfound. inversion Hfound; subst. split; [apply rd_same_env_step|reflexivity].
    - unfold lret in Hfound. inversion Hfound; subst. split; [apply rd_same_env_refl|reflexivity]. }
  destruct Henv2 as (Henv2 & ->). split; [exact Henv2|].
  destruct found; [apply hagree_refl|].
  unfold hagree. rewrite !align_up4, !lbind_ok by apply u32at_lt. fold p1 p2.
  destruct (N.ltb_spec u32_max p1) as [Ho1|Ho1]; cbn [orb]; [left; reflexivity|].
  destruct (N.ltb_spec u32_max p2) as [Ho2|Ho2]; [left; reflexivity|].
  unfold u32_max in Ho1, Ho2.
  rewrite !as_usize_u32 by (change (2 ^ 32) with 4294967296; lia).
  rewrite usize_chain.
  rewrite (checked_add_lt rs 12), (checked_add_lt (rs + 12)), checked_add_lt by (unfold two64; lia).
  cbn [ok_or]. rewrite lbind_ok, Hs', uadd_ok, lbind_ok by (unfold two64; lia).
  assert (Hnext : note_reach f start fsz (rs + 12 + p1 + p2)) by (apply reach_next; assumption).
  destruct (N.ltb_spec (rs + 12 + p1 + p2) usz) as [Hu|Hu]; cbn [ok_or].
  2:{ right. split; [exists (rs + 12 + p1 + p2); split; assumption|]. rewrite lbind_err. exists r2, m. split; [reflexivity|apply rd_same_env_refl]. }
  rewrite lbind_ok, Hs, uadd_ok, lbind_ok, !lbind_lio by (unfold two64; lia).
  destruct (seek_start_cases r2 (start + (rs + 12 + p1 + p2))) as [(r3 & E3 & _)|[E3 _]]; rewrite E3; [left; reflexivity|].
  destruct (IH (rs + 12 + p1 + p2) nhd (rd_step r2 (start + (rs + 12 + p1 + p2))) m) as [E|(p & r' & m' & E & He)].
  - destruct Henv2 as (Ed & _). cbn. rewrite Ed. exact Hd.
  - reflexivity.
  - exact Hnext.
  - left. exact E.
  - right. split; [exact p|]. exists r', m'. split; [exact E|]. exact (rd_same_env_trans _ _ _ (rd_same_env_step _ _) He).
Qed.

Lemma host_parse_elf_note_agree r m : rd_data r = f ->
  hagree far (host_parse_elf_note usz bld b) (parse_elf_note bld b') r m.
Proof.
  intros Hd. unfold host_parse_elf_note, parse_elf_note, hagree. rewrite !lbind_lio, Hs, Hs'.
  destruct (seek_start_cases r start) as [(r1 & E1 & _)|[E1 _]]; rewrite E1; [left; reflexivity|].
  set (r1 := rd_step r start).
  match goal with |- lbind ?x ?k r1 m = lbind ?y ?k' r1 m \/ _ =>
    cut (hagree far (lbind x k) (lbind y k') r1 m)
  end.
  { intros [E|(p & r' & m' & E & He)]; [left; exact E|right]. split; [exact p|]. exists r', m'. split; [exact E|].
    exact (rd_same_env_trans _ _ _ (rd_same_env_step r start) He). }
  apply hagree_bind.
  { destruct (host_note_loop_agree (note_fuel r1) 0 (default_of Elf64_Nhdr) r1 m) as [E|H].
    - exact Hd.
    - cbn. lia.
    - constructor.
    - left. exact E.
    - right. exact H. }
  intros [rs nh] r2 m2 E. split.
  { apply (note_loop_spec bld b' f (rd_maxpos r) start fsz Hs' Hz' Hlen) in E;
      [tauto|exact Hd|reflexivity|cbn; lia|exact (proj1 (note_fuel_ok r1 0))|].
    pose proof (proj2 (note_fuel_ok r1 (start + 0))) as Hx. change (rd_data r1) with (rd_data r) in Hx. rewrite Hd in Hx. exact Hx. }
  cbn [fst snd]. rewrite Hz, Hz'.
  assert (Hdd : as_usize usz (nhdr_get "n_descsz" nh) = nhdr_get "n_descsz" nh).
  { apply as_usize_u32. unfold nhdr_get. exact (get_lt Elf64_Nhdr [Fld "n_descsz"] nh 4 U32 eq_refl). }
  rewrite Hdd. apply hagree_refl.
Qed.
End Notes.

(** ** the program headers *)
Lemma host_load_phdrs_agree bld be off phdrs : forall kend cap r m,
  wf_reader r -> wf_mem m = true -> Forall (fun b => phdr_get "p_filesz" b < usz) phdrs ->
  hagree (exists b x, In b phdrs /\ phdr_get "p_type" b = 4 /\ off = None /\
            note_reach (rd_data r) (phdr_get "p_offset" b) (phdr_get "p_filesz" b) x /\ usz <= x)
    (host_load_phdrs usz bld be off phdrs kend cap) (load_phdrs bld be off phdrs kend cap) r m.
Proof.
  induction phdrs as [|b phdrs IH]; intros kend cap r m Hwr Hwm Hfit; [apply hagree_refl|].
  inversion Hfit as [|? ? Hb Hrest]; subst. clear Hfit. cbn [host_load_phdrs load_phdrs].
  assert (Hgo : forall k c r1 m1, rd_same_env r r1 -> regions m1 = regions m ->
    hagree (exists b0 x, In b0 (b :: phdrs) /\ phdr_get "p_type" b0 = 4 /\ off = None /\
            note_reach (rd_data r) (phdr_get "p_offset" b0) (phdr_get "p_filesz" b0) x /\ usz <= x)
    (host_load_phdrs usz bld be off phdrs k c) (load_phdrs bld be off phdrs k c) r1 m1).
  { intros k c r1 m1 He Hr. eapply hagree_impl; [|apply IH; [now apply (env_wf r)|now rewrite (wf_mem_regions m)|exact Hrest]].
    intros (b0 & x & H1 & H2 & H3 & H4 & H5). exists b0, x. destruct He as (Ed & _). rewrite Ed in H4.
    split; [now right|]. auto. }
  destruct (negb (phdr_get "p_type" b =? PT_LOAD) || (phdr_get "p_filesz" b =? 0)).
  - apply hagree_bind.
    + destruct (N.eqb_spec (phdr_get "p_type" b) PT_NOTE) as [Et|Et]; [|apply hagree_refl].
      destruct off as [k|]; [apply hagree_refl|].
      eapply hagree_impl; [|apply (host_parse_elf_note_agree bld b b (rd_data r) (phdr_get "p_offset" b) (phdr_get "p_filesz" b));
                             [reflexivity|reflexivity|now apply as_usize_small|reflexivity|apply Hwr|reflexivity]].
      intros (x & H1 & H2). exists b, x. split; [now left|]. auto.
    + intros c r1 m1 E. assert (He : rd_same_env r r1 /\ m1 = m).
      { destruct (phdr_get "p_type" b =? PT_NOTE); [|inversion E; subst; split; [apply rd_same_env_refl|reflexivity]].
        destruct off as [k|]; [inversion E; subst; split; [apply rd_same_env_refl|reflexivity]|].
        apply parse_elf_note_spec in E; [|exact Hwr]. cbv zeta in E. tauto. }
      destruct He as [He ->]. split; [exact He|]. apply Hgo; [exact He|reflexivity].
  - apply hagree_bind; [apply hagree_refl|]. intros u r1 m1 E1.
    assert (He1 : rd_same_env r r1 /\ m1 = m).
    { unfold lio in E1. destruct (seek_start_cases r (phdr_get "p_offset" b)) as [(r2 & E2 & _)|[E2 _]]; rewrite E2 in E1; inversion E1; subst.
      split; [apply rd_same_env_step|reflexivity]. }
    destruct He1 as [He1 ->]. split; [exact He1|].
    apply hagree_bind; [apply hagree_refl|]. intros mo r2 m2 E2. unfold lpure in E2. inversion E2; subst. split; [apply rd_same_env_refl|].
    rewrite as_usize_small by exact Hb.
    apply hagree_bind; [apply hagree_refl|]. intros u2 r3 m3 E3.
    assert (He3 : rd_same_env r2 r3 /\ regions m3 = regions m2).
    { unfold lcopy in E3. destruct (read_exact_volatile_from be r2 m2 mo (phdr_get "p_filesz" b)) as [[r4 m4] o4] eqn:Ec.
      pose proof (rev_frame _ _ _ _ _ _ _ _ Hwm Ec) as ((Hreg & _) & Henv & [-> | ->]); inversion E3; subst. auto. }
    destruct He3 as [He3 Hr3]. split; [exact He3|].
    apply hagree_bind; [apply hagree_refl|]. intros ke r4 m4 E4. unfold lpure in E4. inversion E4; subst. split; [apply rd_same_env_refl|].
    apply Hgo; [exact (rd_same_env_trans _ _ _ He1 He3)|exact Hr3].
Qed.

Lemma host_validate f : 64 <= lenN f -> phoff_of f < usz ->
  host_validate_header usz (slice f 0 64) = validate_header (slice f 0 64).
Proof.
  intros Hl Hp. unfold host_validate_header, validate_header.
  rewrite (as_usize_u32 (ehdr_get "e_phentsize" _)).
  2:{ eapply N.lt_le_trans; [exact (get_lt Elf64_Ehdr [Fld "e_phentsize"] _ 54 U16 eq_refl)|]. vm_compute. discriminate. }
  rewrite as_usize_small by (rewrite ehdr_phoff by assumption; exact Hp). reflexivity.
Qed.

Lemma host_elf_load_agree bld be off highmem r m :
  wf_reader r -> wf_mem m = true -> elf_fits usz (rd_data r) ->
  hagree (off = None /\ notes_too_far usz (rd_data r)) (host_elf_load usz bld be off highmem) (elf_load bld be off highmem) r m.
Proof.
  intros Hwr Hwm [Hph Hfit]. unfold host_elf_load, elf_load.
  set (f := rd_data r) in *.
  unfold hagree. rewrite !lbind_lio.
  destruct (seek_start_cases r 0) as [(r1 & E1 & _)|[E1 _]]; rewrite E1; [left; reflexivity|].
  set (r1 := rd_step r 0). rewrite !lbind_lio. change (size Elf64_Ehdr) with 64.
  destruct (read_exact_cases r1 64) as [(r2 & E2 & _)|[E2 Hin]]; rewrite E2; [left; reflexivity|].
  change (rd_data r1) with f in *. change (rd_pos r1) with 0 in *. rewrite N.add_0_l in *.
  set (r2 := rd_step r1 64).
  assert (He2 : rd_same_env r r2) by exact (rd_same_env_trans _ _ _ (rd_same_env_step r 0) (rd_same_env_step r1 64)).
  rewrite host_validate by assumption.
  assert (Hnum : as_usize usz (ehdr_get "e_phnum" (slice f 0 64)) = ehdr_get "e_phnum" (slice f 0 64)).
  { apply as_usize_u32. eapply N.lt_le_trans; [exact (get_lt Elf64_Ehdr [Fld "e_phnum"] _ 56 U16 eq_refl)|]. vm_compute. discriminate. }
  rewrite Hnum. clear Hnum.
  match goal with |- lbind ?x ?k r2 m = lbind ?y ?k' r2 m \/ (?P /\ _) =>
    cut (hagree P (lbind x k) (lbind y k') r2 m)
  end.
  { intros [E|(p & r' & m' & E & He)]; [left; exact E|right]. split; [exact p|]. exists r', m'. split; [exact E|].
    exact (rd_same_env_trans _ _ _ He2 He). }
  rewrite ehdr_entry, ehdr_phoff, ehdr_phnum by assumption.
  apply hagree_bind; [apply hagree_refl|]. intros u r3 m3 E3. unfold lpure in E3. inversion E3; subst. split; [apply rd_same_env_refl|].
  apply hagree_bind; [apply hagree_refl|]. intros u2 r4 m4 E4.
  assert (He4 : r4 = r2 /\ m4 = m3).
  { destruct highmem as [h|]; [destruct (entry_of f <? h)|]; inversion E4; auto. }
  destruct He4 as [-> ->]. split; [apply rd_same_env_refl|].
  apply hagree_bind; [apply hagree_refl|]. intros ld r5 m5 E5. unfold lpure in E5. inversion E5; subst. split; [apply rd_same_env_refl|].
  apply hagree_bind; [apply hagree_refl|]. intros u3 r6 m6 E6.
  assert (He6 : r6 = rd_step r2 (phoff_of f) /\ m6 = m5).
  { unfold lio in E6. destruct (seek_start_cases r2 (phoff_of f)) as [(r7 & E7 & _)|[E7 _]]; rewrite E7 in E6; inversion E6; auto. }
  destruct He6 as [-> ->]. split; [apply rd_same_env_step|].
  set (r6 := rd_step r2 (phoff_of f)).
  apply hagree_bind; [apply hagree_refl|]. intros phs r7 m7 E7.
  apply read_phdrs_spec in E7 as (-> & Henv7 & Hpost). split; [exact Henv7|].
  change (rd_data r6) with f in Hpost. change (rd_pos r6) with (phoff_of f) in Hpost.
  rewrite N2Nat.id in Hpost. destruct Hpost as [(Ephs & Htab)|(Ephs & _)]; [|discriminate Ephs].
  injection Ephs as Ephs.
  assert (Hphs : map ph_of phs = phdrs_of f).
  { rewrite Ephs, map_map. apply map_ext_in. intros i Hi. apply in_seq in Hi. unfold ph_at. apply ph_of_slice.
    destruct Htab as [Hz|Hz]; lia. }
  assert (He7 : rd_same_env r r7) by exact (rd_same_env_trans _ _ _ He2 (rd_same_env_trans _ _ _ (rd_same_env_step r2 _) Henv7)).
  apply hagree_bind.
  - eapply hagree_impl; [|apply host_load_phdrs_agree; [now apply (env_wf r)|exact Hwm|]].
    + intros (b & x & G1 & G2 & G3 & G4 & G5). split; [exact G3|]. exists (ph_of b), x.
      split; [rewrite <- Hphs; now apply in_map|]. split; [unfold is_note, ph_of; cbn; now apply N.eqb_eq|].
      split; [|exact G5]. destruct He7 as (Ed & _). rewrite Ed in G4. exact G4.
    + rewrite <- Hphs in Hfit. apply Forall_forall. intros b Hb. rewrite Forall_forall in Hfit.
      exact (Hfit _ (in_map ph_of _ _ Hb)).
  - intros res r8 m8 E8. apply load_phdrs_spec in E8 as (He8 & _); [|now apply (env_wf r)|exact Hwm]. split; [exact He8|]. apply hagree_refl.
Qed.

(** ** on any host, whatever the image: no panic, and memory only changes where segments go *)
Definition sound {A} (P : N -> Prop) (x : L A) : Prop := forall r m r' m' o,
  wf_reader r -> wf_mem m = true -> x r m = (r', m', o) ->
  rd_same_env r r' /\ same_outside m m' P /\ forall p, o <> Panic p.
Lemma sound_bind {A B} P (x : L A) (f : A -> L B) : sound P x -> (forall a, sound P (f a)) -> sound P (lbind x f).
Proof.
  intros Hx Hf r m r' m' o Hwr Hwm H. unfold lbind in H. destruct (x r m) as [[r1 m1] o1] eqn:E.
  destruct (Hx _ _ _ _ _ Hwr Hwm E) as (He & Hs & Hp). destruct o1 as [a|e|q].
  - destruct (Hf a r1 m1 r' m' o) as (He2 & Hs2 & Hp2); [now apply (env_wf r)|rewrite (wf_mem_regions m) by apply Hs; exact Hwm|exact H|].
    split; [exact (rd_same_env_trans _ _ _ He He2)|]. split; [|exact Hp2].
    destruct Hs as [G1 G2], Hs2 as [G3 G4]. split; [congruence|]. intros y Hy. rewrite G4, G2 by assumption. reflexivity.
  - inversion H; subst. split; [exact He|]. split; [exact Hs|]. intros q Hq. discriminate.
  - exfalso. exact (Hp q eq_refl).
Qed.
Lemma sound_io {A} P (op : reader -> reader * option A) e :
  (forall r r' o, op r = (r', o) -> rd_same_env r r') -> sound P (lio op e).
Proof.
  intros Ho r m r' m' o _ _ H. unfold lio in H. destruct (op r) as [r1 [a|]] eqn:E; inversion H; subst;
    (split; [exact (Ho _ _ _ E)|]; split; [apply same_outside_refl|intros p Hp; discriminate]).
Qed.
Lemma sound_pure {A} P (x : outcome lerror A) : (forall p, x <> Panic p) -> sound P (lpure x).
Proof.
  intros Hx r m r' m' o _ _ H. unfold lpure in H. inversion H; subst. split; [apply rd_same_env_refl|].
  split; [apply same_outside_refl|exact Hx].
Qed.
Lemma sound_bind_pure {A B} P (x : outcome lerror A) (f : A -> L B) :
  (forall p, x <> Panic p) -> (forall a, x = Ok a -> sound P (f a)) -> sound P (lbind (lpure x) f).
Proof.
  intros Hx Hf. destruct x as [a|e|q].
  - intros r m r' m' o Hwr Hwm H. rewrite lbind_ok in H. exact (Hf a eq_refl _ _ _ _ _ Hwr Hwm H).
  - intros r m r' m' o Hwr Hwm H. rewrite lbind_err in H. inversion H; subst. split; [apply rd_same_env_refl|].
    split; [apply same_outside_refl|]. intros p Hp. discriminate.
  - exfalso. exact (Hx q eq_refl).
Qed.
Lemma sound_ret {A} P (a : A) : sound P (lret a).
Proof. apply (sound_pure P (Ok a)). discriminate. Qed.
Lemma sound_fail {A} P e : sound P (@lfail A e).
Proof. apply (sound_pure P (Err e)). discriminate. Qed.
Lemma sound_copy be (P : N -> Prop) a n e : (forall x, in_range a n x -> P x) -> sound P (lcopy be a n e).
Proof.
  intros HP r m r' m' o _ Hwm H. unfold lcopy in H.
  destruct (read_exact_volatile_from be r m a n) as [[r1 m1] o1] eqn:E.
  pose proof (rev_frame _ _ _ _ _ _ _ _ Hwm E) as ((Hreg & Hb) & Henv & Ho).
  assert (r1 = r' /\ m1 = m' /\ forall p, o <> Panic p) as (-> & -> & Hp).
  { destruct Ho as [-> | ->]; inversion H; subst; (split; [reflexivity|]; split; [reflexivity|intros p Hp; discriminate]). }
  split; [exact Henv|]. split; [|exact Hp]. split; [exact Hreg|]. intros x Hx. apply Hb. intros Hi. apply Hx, HP, Hi.
Qed.
Lemma sound_seek P p e : sound P (lio (fun r => seek_start r p) e).
Proof.
  apply sound_io. intros r r' o H. unfold seek_start in H.
  destruct (rd_fault r Seeking (rd_ops r)); [|destruct (rd_maxpos r <? p)]; inversion H; apply rd_same_env_step.
Qed.
Lemma sound_read P n e : sound P (lio (fun r => read_exact r n) e).
Proof.
  apply sound_io. intros r r' o H. unfold read_exact in H.
  destruct (rd_fault r Reading (rd_ops r)); [|destruct (rd_len r <? rd_pos r + n)]; inversion H; apply rd_same_env_step.
Qed.
Lemma sound_weak {A} (P Q : N -> Prop) (x : L A) : (forall y, P y -> Q y) -> sound P x -> sound Q x.
Proof.
  intros HPQ Hx r m r' m' o H1 H2 H3. destruct (Hx r m r' m' o H1 H2 H3) as (G1 & (G2 & G3) & G4).
  split; [exact G1|]. split; [|exact G4]. split; [exact G2|]. intros y Hy. apply G3. intros HP. apply Hy, HPQ, HP.
Qed.

Lemma trunc_phdr b : lenN b = 56 -> exists b', phdr_get "p_offset" b' = phdr_get "p_offset" b /\
  phdr_get "p_filesz" b' = as_usize usz (phdr_get "p_filesz" b).
Proof.
  intros Hl. exists (set Elf64_Phdr [Fld "p_filesz"] (as_usize usz (phdr_get "p_filesz" b)) b). unfold phdr_get. split.
  - apply get_set_other; [exact Hl|]. apply div_fld. discriminate.
  - rewrite (get_set_same Elf64_Phdr _ 32 U64) by (exact Hl || reflexivity). apply N.mod_small.
    eapply N.le_lt_trans; [|exact (get_lt Elf64_Phdr [Fld "p_filesz"] b 32 U64 eq_refl)].
    unfold as_usize. apply N.mod_le. pose proof usz_ge. lia.
Qed.

Definition keeps {A} (x : L A) : Prop := forall r m r' m' o, x r m = (r', m', o) -> m' = m.
Lemma keeps_bind {A B} (x : L A) (f : A -> L B) : keeps x -> (forall a, keeps (f a)) -> keeps (lbind x f).
Proof.
  intros Hx Hf r m r' m' o H. unfold lbind in H. destruct (x r m) as [[r1 m1] o1] eqn:E.
  apply Hx in E as ->. destruct o1; [exact (Hf _ _ _ _ _ _ H)|inversion H; reflexivity|inversion H; reflexivity].
Qed.
Lemma keeps_io {A} (op : reader -> reader * option A) e : keeps (lio op e).
Proof. intros r m r' m' o H. unfold lio in H. destruct (op r) as [r1 [a|]]; inversion H; reflexivity. Qed.
Lemma keeps_pure {A} (x : outcome lerror A) : keeps (lpure x).
Proof. intros r m r' m' o H. inversion H; reflexivity. Qed.
Lemma keeps_ret {A} (a : A) : keeps (lret a).
Proof. apply (keeps_pure (Ok a)). Qed.
Lemma keeps_fail {A} e : keeps (@lfail A e).
Proof. apply (keeps_pure (Err e)). Qed.
Ltac keep := repeat first
  [ apply keeps_bind; [|intros ?] | apply keeps_io | apply keeps_pure | apply keeps_ret | apply keeps_fail
  | match goal with |- keeps (if ?b then _ else _) => destruct b end ].
Lemma keeps_note_loop bld b fuel : forall rs nh, keeps (host_note_loop usz bld fuel b rs nh).
Proof. induction fuel as [|fuel IH]; intros rs nh; cbn [host_note_loop]; keep. apply IH. Qed.
Lemma keeps_note bld b : keeps (host_parse_elf_note usz bld b).
Proof.
  unfold host_parse_elf_note. apply keeps_bind; [apply keeps_io|intros _].
  apply keeps_bind; [intros r m r' m' o H; exact (keeps_note_loop _ _ _ _ _ _ _ _ _ _ H)|intros res]. cbv zeta. keep.
Qed.

Lemma sound_note P bld b : lenN b = 56 -> sound P (host_parse_elf_note usz bld b).
Proof.
  intros Hl r m r' m' o Hwr Hwm H. destruct (trunc_phdr b Hl) as (b' & Ho & Hz).
  pose proof (keeps_note _ _ _ _ _ _ _ H) as ->.
  destruct (host_parse_elf_note_agree bld b b' (rd_data r) (phdr_get "p_offset" b) _ eq_refl Ho eq_refl Hz (proj1 Hwr) r m eq_refl)
    as [E|(_ & r1 & m1 & E & He)]; rewrite H in E.
  - symmetry in E. apply parse_elf_note_spec in E as (_ & Henv & Hpost); [|exact Hwr]. split; [exact Henv|].
    split; [apply same_outside_refl|]. intros p ->.
    destruct Hpost as [[(_ & G)|(_ & G)]|[(v & c & _ & _ & G)|(e & _ & G)]]; discriminate G.
  - inversion E; subst. split; [exact He|]. split; [apply same_outside_refl|]. intros p Hp. discriminate.
Qed.

Lemma sound_phdrs bld be off phdrs : forall kend cap, Forall (fun b => lenN b = 56) phdrs ->
  sound (fun x => exists p, In p (map ph_of phdrs) /\ seg_dest off p x) (host_load_phdrs usz bld be off phdrs kend cap).
Proof.
  induction phdrs as [|b phdrs IH]; intros kend cap Hl; cbn [host_load_phdrs map]; [apply sound_ret|].
  inversion Hl as [|? ? Hb Hrest]; subst.
  assert (Hgo : forall k c, sound (fun x => exists p, In p (ph_of b :: map ph_of phdrs) /\ seg_dest off p x) (host_load_phdrs usz bld be off phdrs k c)).
  { intros k c. eapply sound_weak; [|apply IH; exact Hrest]. intros y (p & H1 & H2). exists p. split; [now right|exact H2]. }
  destruct (negb (phdr_get "p_type" b =? PT_LOAD) || (phdr_get "p_filesz" b =? 0)) eqn:El.
  - apply sound_bind; [|intros c; apply Hgo]. destruct (phdr_get "p_type" b =? PT_NOTE); [|apply sound_ret].
    destruct off; [apply sound_ret|]. apply sound_note. exact Hb.
  - apply sound_bind; [apply sound_seek|intros _].
    assert (Hload : is_load (ph_of b) = true).
    { apply orb_false_iff in El as [E1 E2]. apply negb_false_iff in E1. unfold is_load.
      change (ph_type (ph_of b)) with (phdr_get "p_type" b). change (ph_filesz (ph_of b)) with (phdr_get "p_filesz" b).
      unfold PT_LOAD in E1. rewrite E1, E2. reflexivity. }
    apply sound_bind_pure.
    { intros p. destruct off as [k|]; [|discriminate]. unfold checked_add. destruct (k + phdr_get "p_paddr" b <? two64); discriminate. }
    intros mo Emo. assert (Hmo : mo = base_of off + ph_paddr (ph_of b)).
    { destruct off as [k|]; cbn [base_of].
      - unfold checked_add in Emo. destruct (k + phdr_get "p_paddr" b <? two64); cbn [ok_or] in Emo; [|discriminate Emo].
        injection Emo as <-. reflexivity.
      - injection Emo as <-. rewrite N.add_0_l. reflexivity. }
    apply sound_bind.
    { apply sound_copy. intros x [Hx1 Hx2]. exists (ph_of b). split; [now left|]. split; [exact Hload|]. rewrite Hmo in *. split; [exact Hx1|].
      change (ph_filesz (ph_of b)) with (phdr_get "p_filesz" b). eapply N.lt_le_trans; [exact Hx2|].
      apply N.add_le_mono_l. unfold as_usize. apply N.mod_le. pose proof usz_ge. lia. }
    intros _. apply sound_bind_pure.
    { intros p. unfold checked_add. destruct (mo + phdr_get "p_memsz" b <? two64); discriminate. }
    intros ke _. apply Hgo.
Qed.

Lemma host_elf_load_sound bld be off highmem r m r' m' o :
  wf_reader r -> wf_mem m = true -> host_elf_load usz bld be off highmem r m = (r', m', o) ->
  rd_same_env r r' /\ same_outside m m' (fun x => exists p, In p (phdrs_of (rd_data r)) /\ seg_dest off p x) /\
  forall p, o <> Panic p.
Proof.
  intros Hwr Hwm H. unfold host_elf_load in H. set (f := rd_data r) in *.
  assert (Hstop : forall r1 e, rd_same_env r r1 -> (r1, m, @Err lerror load_result e) = (r', m', o) ->
    rd_same_env r r' /\ same_outside m m' (fun x => exists p, In p (phdrs_of f) /\ seg_dest off p x) /\ forall p, o <> Panic p).
  { intros r1 e He E. inversion E; subst. split; [exact He|]. split; [apply same_outside_refl|]. intros p Hp. discriminate. }
  rewrite lbind_lio in H.
  destruct (seek_start_cases r 0) as [(r1 & E1 & Henv1 & _)|[E1 _]]; rewrite E1 in H; [exact (Hstop _ _ Henv1 H)|].
  set (r1 := rd_step r 0) in *. assert (Henv1 : rd_same_env r r1) by apply rd_same_env_step.
  rewrite lbind_lio in H. change (size Elf64_Ehdr) with 64 in H.
  destruct (read_exact_cases r1 64) as [(r2 & E2 & Henv2 & _)|[E2 Hin2]]; rewrite E2 in H;
    [exact (Hstop _ _ (rd_same_env_trans _ _ _ Henv1 Henv2) H)|].
  change (rd_data r1) with f in *. change (rd_pos r1) with 0 in *. rewrite N.add_0_l in *.
  set (r2 := rd_step r1 64) in *.
  assert (Henv2 : rd_same_env r r2) by (exact (rd_same_env_trans _ _ _ Henv1 (rd_same_env_step r1 64))).
  assert (Hv : host_validate_header usz (slice f 0 64) = Ok tt \/ exists e, host_validate_header usz (slice f 0 64) = Err e).
  { unfold host_validate_header. repeat match goal with |- context [if ?c then _ else _] => destruct c end; eauto. }
  destruct Hv as [Ev|[e Ev]]; rewrite Ev in H; [|rewrite lbind_err in H; exact (Hstop _ _ Henv2 H)].
  rewrite lbind_ok in H. rewrite ehdr_entry, ehdr_phoff, ehdr_phnum in H by assumption.
  rewrite as_usize_u32 in H by (eapply N.lt_le_trans; [apply u16at_lt|vm_compute; discriminate]).
  assert (Hhm : match highmem with
                 | Some addr => if entry_of f <? addr then lfail (LElf InvalidEntryAddress) else lret tt
                 | None => lret tt
                 end = lret tt \/
                match highmem with
                 | Some addr => if entry_of f <? addr then lfail (LElf InvalidEntryAddress) else lret tt
                 | None => lret tt
                 end = lfail (LElf InvalidEntryAddress)).
  { destruct highmem as [h|]; [|auto]. destruct (entry_of f <? h); auto. }
  destruct Hhm as [Eh|Eh]; rewrite Eh in H; [|exact (Hstop _ _ Henv2 H)]. rewrite lbind_ret in H.
  assert (Hent : (exists l, match off with
                 | Some k => ok_or (checked_add k (entry_of f)) (LElf ElfOverflow)
                 | None => Ok (entry_of f)
                 end = Ok l) \/ match off with
                 | Some k => ok_or (checked_add k (entry_of f)) (LElf ElfOverflow)
                 | None => Ok (entry_of f)
                 end = Err (LElf ElfOverflow)).
  { destruct off as [k|]; [|eauto]. unfold checked_add. destruct (k + entry_of f <? two64); cbn [ok_or]; eauto. }
  destruct Hent as [[l El]|El]; rewrite El in H; [|rewrite lbind_err in H; exact (Hstop _ _ Henv2 H)].
  rewrite lbind_ok, lbind_lio in H.
  destruct (seek_start_cases r2 (phoff_of f)) as [(r3 & E3 & Henv3 & _)|[E3 _]]; rewrite E3 in H;
    [exact (Hstop _ _ (rd_same_env_trans _ _ _ Henv2 Henv3) H)|].
  set (r3 := rd_step r2 (phoff_of f)) in *.
  assert (Henv3 : rd_same_env r r3) by (exact (rd_same_env_trans _ _ _ Henv2 (rd_same_env_step _ _))).
  unfold lbind at 1 in H.
  destruct (read_phdrs (N.to_nat (phnum_of f)) r3 m) as [[r4 m4] o4] eqn:Ep.
  apply read_phdrs_spec in Ep as (-> & Henv4 & Hpost). change (rd_data r3) with f in Hpost. change (rd_pos r3) with (phoff_of f) in Hpost.
  rewrite N2Nat.id in Hpost. pose proof (rd_same_env_trans _ _ _ Henv3 Henv4) as Henv4'.
  destruct Hpost as [(-> & Htab)|(-> & _)]; [|exact (Hstop _ _ Henv4' H)].
  assert (Hin : forall i, In i (seq 0 (N.to_nat (phnum_of f))) -> phoff_of f + 56 * N.of_nat i + 56 <= lenN f).
  { intros i Hi. apply in_seq in Hi. destruct Htab as [Hz|Hz]; lia. }
  assert (Hphs : map ph_of (map (fun i => slice f (phoff_of f + 56 * N.of_nat i) 56) (seq 0 (N.to_nat (phnum_of f)))) = phdrs_of f).
  { rewrite map_map. apply map_ext_in. intros i Hi. unfold ph_at. apply ph_of_slice. apply Hin in Hi. lia. }
  unfold lbind in H.
  destruct (host_load_phdrs _ _ _ _ _ _ _ _) as [[r5 m5] o5] eqn:Elp.
  apply sound_phdrs in Elp; [|apply Forall_forall; intros b Hb; apply in_map_iff in Hb as (i & <- & Hi); apply Hin in Hi; rewrite lenN_slice; lia
                             |now apply (env_wf r)|exact Hwm].
  rewrite Hphs in Elp. destruct Elp as (Henv5 & Hs5 & Hp5).
  pose proof (rd_same_env_trans _ _ _ Henv4' Henv5) as Henv5'.
  destruct o5 as [res|e|q].
  - unfold lret in H. inversion H; subst. split; [exact Henv5'|]. split; [exact Hs5|]. intros p Hp. discriminate.
  - inversion H; subst. split; [exact Henv5'|]. split; [exact Hs5|]. intros p Hp. discriminate.
  - exfalso. exact (Hp5 q eq_refl).
Qed.
(** ** bzImage: everything the loader can do *)
Definition host_bz_post (be : backend) (off highmem : option N) (r : reader) (m m' : gmem) (o : outcome lerror load_result) : Prop :=
  let f := rd_data r in
  let isz := lenN f mod usz in
  (short_or_fault r /\ m' = m /\ (o = Err (LBz SeekBzImageEnd) \/ o = Err (LBz SeekBzImageHeader) \/ o = Err (LBz ReadBzImageHeader))) \/
  exists k, let g := seen f k in
    (k = 123 \/ short_reads r) /\
    ((~ bz_header_good g /\ o = Err (LBz InvalidBzImage) /\ m' = m) \/
     (bz_header_good g /\ isz < bz_setup_size g /\ o = Err (LBz BzUnderflow) /\ m' = m) \/
     (bz_header_good g /\ bz_setup_size g <= isz /\ ~ bz_highmem_ok g highmem /\ o = Err InvalidKernelStartAddress /\ m' = m) \/
     (bz_header_good g /\ bz_setup_size g <= isz /\ bz_highmem_ok g highmem /\
      let a := bz_load_addr g off in
      let n := isz - bz_setup_size g in
      (seek_trouble r /\ o = Err (LBz SeekBzImageCompressedKernel) /\ m' = m \/
       same_outside m m' (in_range a n) /\
       (o = Err (LBz ReadBzImageCompressedKernel) /\ (read_trouble be r \/ ~ dest_ok be m a n) \/
        dest_ok be m a n /\ mem_is_overlay m m' [(a, part f (bz_setup_size g) n)] /\
        (two64 <= a + n /\ o = Err MemoryOverflow \/
         a + n < two64 /\ o = Ok (mkResult a (a + n) (Some (with_code32 (header_got f k) a)) PvhEntryIgnored)))))).

Lemma host_bz_load_spec be off highmem r m r' m' o :
  wf_reader r -> 0x1f1 <= rd_maxpos r -> wf_mem m = true -> host_bz_load usz be off highmem r m = (r', m', o) ->
  rd_same_env r r' /\ regions m' = regions m /\ host_bz_post be off highmem r m m' o.
Proof.
  intros (Hl63 & Hlm & Hm64) Hmp Hw H. unfold host_bz_load in H. set (f := rd_data r) in *. set (isz := lenN f mod usz) in *.
  assert (Hisz : isz <= lenN f) by (apply N.mod_le; pose proof usz_ge; lia).
  rewrite lbind_lio in H.
  destruct (seek_end_cases r) as [(r1 & E1 & Henv1 & Hf)|E1]; rewrite E1 in H.
  { inversion H; subst m' o r'. split; [exact Henv1|]. split; [reflexivity|]. left. split; [exact (seek_short _ Hf)|auto]. }
  set (r1 := rd_step r (rd_len r)) in *. assert (Henv1 : rd_same_env r r1) by apply rd_same_env_step.
  rewrite lbind_lio in H.
  destruct (seek_start_cases r1 0x1F1) as [(r2 & E2 & Henv2 & Hwhy)|[E2 _]]; rewrite E2 in H.
  { inversion H; subst m' o r'. split; [exact (rd_same_env_trans _ _ _ Henv1 Henv2)|]. split; [reflexivity|]. left.
    destruct Hwhy as [Hx|Hx]; [change (rd_maxpos r1) with (rd_maxpos r) in Hx; lia|].
    split; [exact (seek_short _ (env_seek _ _ Henv1 Hx))|auto]. }
  set (r2 := rd_step r1 0x1F1) in *.
  assert (Henv2 : rd_same_env r r2) by exact (rd_same_env_trans _ _ _ Henv1 (rd_same_env_step _ _)).
  rewrite lbind_lio in H.
  destruct (read_header_cases r2) as [(r3 & E3 & Henv3 & Hx)|(r3 & k & E3 & Henv3 & Hk)]; rewrite E3 in H.
  { inversion H; subst m' o r'. split; [exact (rd_same_env_trans _ _ _ Henv2 Henv3)|]. split; [reflexivity|]. left.
    split; [exact (rfault_short _ (env_rfault _ _ Henv2 Hx))|auto]. }
  assert (Henv3' : rd_same_env r r3) by exact (rd_same_env_trans _ _ _ Henv2 Henv3).
  change (rd_data r2) with f in *. change (rd_pos r2) with 0x1f1 in *. cbv zeta in H. rewrite <- part_slice in H.
  change (part f 0x1f1 (N.min k 123) ++ zeros (123 - lenN (part f 0x1f1 (N.min k 123)))) with (header_got f k) in H.
  rewrite hdr_header, hdr_version, hdr_loadflags, hdr_setup_sects, hdr_code32, hdr_set_code32 in H.
  set (g := seen f k) in *.
  assert (Hk' : k = 123 \/ short_reads r) by exact Hk.
  assert (Hpk : forall P : Prop, P -> P) by auto.
  assert (Hstop : forall rr e, rd_same_env r rr ->
     (~ bz_header_good g /\ e = LBz InvalidBzImage) \/
     (bz_header_good g /\ isz < bz_setup_size g /\ e = LBz BzUnderflow) \/
     (bz_header_good g /\ bz_setup_size g <= isz /\ ~ bz_highmem_ok g highmem /\ e = InvalidKernelStartAddress) ->
     (rr, m, @Err lerror load_result e) = (r', m', o) ->
     rd_same_env r r' /\ regions m' = regions m /\ host_bz_post be off highmem r m m' o).
  { intros rr e He Hc E. inversion E; subst m' o r'. split; [exact He|]. split; [reflexivity|]. right. exists k. cbv zeta. fold f g isz.
    split; [exact Hk'|]. destruct Hc as [(? & ->)|[(? & ? & ->)|(? & ? & ? & ->)]].
    - left. auto.
    - right; left. auto.
    - right; right; left. auto. }
  destruct (N.eqb_spec (bz_magic g) 0x53726448) as [Em|Em]; cbn [negb] in H.
  2:{ eapply Hstop; [exact Henv3'|left; split; [|reflexivity]|exact H]. intros (G & _). contradiction. }
  destruct (N.ltb_spec (bz_version g) 0x200) as [Ev|Ev]; cbn [orb] in H.
  { eapply Hstop; [exact Henv3'|left; split; [|reflexivity]|exact H]. intros (_ & G & _). lia. }
  rewrite land1 in H.
  destruct (N.eqb_spec (bz_loadflags g mod 2) 0) as [Ef|Ef].
  { eapply Hstop; [exact Henv3'|left; split; [|reflexivity]|exact H]. intros (_ & _ & G). lia. }
  assert (Hgood : bz_header_good g).
  { unfold bz_header_good. split; [assumption|]. split; [assumption|]. destruct (mod2_cases (bz_loadflags g)); [contradiction|assumption]. }
  assert (Hsb : bz_setup_sects g < 256) by apply byte_at_lt.
  rewrite (as_usize_u32 (bz_setup_sects g)) in H by (change (2 ^ 32) with 4294967296; lia).
  set (s := if bz_setup_sects g =? 0 then 4 else bz_setup_sects g) in *.
  assert (Hs : 1 <= s < 256) by (unfold s; destruct (N.eqb_spec (bz_setup_sects g) 0); lia).
  pose proof usz_ge as Hge32.
  unfold usize_add, usize_mul in H. rewrite (proj2 (N.ltb_lt (s + 1) usz)) in H by lia.
  rewrite (proj2 (N.ltb_lt ((s + 1) * 512) usz)) in H by lia.
  cbn [ok_or] in H. rewrite lbind_ok in H.
  assert (Hss : (s + 1) * 512 = bz_setup_size g) by (unfold bz_setup_size; fold s; lia).
  rewrite Hss in H. assert (Hsz : bz_setup_size g <= 512 * 256) by lia.
  unfold rd_len in H. fold f in H. unfold as_usize at 1 in H. fold isz in H. unfold checked_sub in H.
  destruct (N.leb_spec (bz_setup_size g) isz) as [Hle|Hgt].
  2:{ cbn [ok_or] in H. rewrite lbind_err in H. eapply Hstop; [exact Henv3'|right; left; auto|exact H]. }
  cbn [ok_or] in H. rewrite lbind_ok in H.
  assert (Hh : (match highmem with Some h => bz_code32_start g <? h | None => false end = false /\ bz_highmem_ok g highmem) \/
               (match highmem with Some h => bz_code32_start g <? h | None => false end = true /\ ~ bz_highmem_ok g highmem)).
  { destruct highmem as [h|]; cbn; [|auto]. destruct (N.ltb_spec (bz_code32_start g) h); [right|left]; (split; [reflexivity|lia]). }
  destruct Hh as [[Eh Hh]|[Eh Hh]]; rewrite Eh in H.
  2:{ eapply Hstop; [exact Henv3'|right; right; auto|exact H]. }
  fold (bz_load_addr g off) in H. set (a := bz_load_addr g off) in *. set (n := isz - bz_setup_size g) in *.
  assert (Hfin : forall rr mm oo, rd_same_env r rr -> regions mm = regions m ->
    (seek_trouble r /\ oo = Err (LBz SeekBzImageCompressedKernel) /\ mm = m \/
     same_outside m mm (in_range a n) /\
       (oo = Err (LBz ReadBzImageCompressedKernel) /\ (read_trouble be r \/ ~ dest_ok be m a n) \/
        dest_ok be m a n /\ mem_is_overlay m mm [(a, part f (bz_setup_size g) n)] /\
        (two64 <= a + n /\ oo = Err MemoryOverflow \/
         a + n < two64 /\ oo = Ok (mkResult a (a + n) (Some (with_code32 (header_got f k) a)) PvhEntryIgnored)))) ->
    (rr, mm, oo) = (r', m', o) -> rd_same_env r r' /\ regions m' = regions m /\ host_bz_post be off highmem r m m' o).
  { intros rr mm oo He Hr Hc E. inversion E; subst rr mm oo. split; [exact He|]. split; [exact Hr|]. right. exists k. cbv zeta. fold f g isz.
    split; [exact Hk'|]. right; right; right. split; [exact Hgood|]. split; [exact Hle|]. split; [exact Hh|]. fold a n. exact Hc. }
  rewrite lbind_lio in H.
  destruct (seek_start_cases r3 (bz_setup_size g)) as [(r4 & E4 & Henv4 & Hwhy)|[E4 _]]; rewrite E4 in H.
  { eapply Hfin; [exact (rd_same_env_trans _ _ _ Henv3' Henv4)|reflexivity| |exact H]. left.
    destruct Hwhy as [Hx|Hx].
    - destruct Henv3' as (_ & Emx & _). rewrite Emx in Hx. lia.
    - split; [exact (env_seek _ _ Henv3' Hx)|auto]. }
  set (r4 := rd_step r3 (bz_setup_size g)) in *.
  assert (Henv4 : rd_same_env r r4) by exact (rd_same_env_trans _ _ _ Henv3' (rd_same_env_step _ _)).
  assert (Ed4 : rd_data r4 = f) by (destruct Henv4 as (Ed & _); exact Ed).
  unfold lbind at 1 in H. unfold lcopy in H.
  destruct (read_exact_volatile_from be r4 m a n) as [[r5 m5] o5] eqn:Ec.
  apply copy_any in Ec; [|exact Hw|rewrite Ed4; change (rd_pos r4) with (bz_setup_size g); unfold n; lia].
  destruct Ec as (Henv5 & Hfr & Hpost). rewrite Ed4 in Hpost. change (rd_pos r4) with (bz_setup_size g) in Hpost.
  pose proof (rd_same_env_trans _ _ _ Henv4 Henv5) as Henv5'.
  destruct Hpost as [(-> & Hd & Hput)|(-> & Hwhy)].
  2:{ eapply Hfin; [exact Henv5'|apply Hfr| |exact H]. right. split; [exact Hfr|]. left. split; [reflexivity|].
      destruct Hwhy as [Ht|Hd]; [left|right; exact Hd]. exact (env_rtrouble _ _ _ Henv4 Ht). }
  assert (Hov : mem_is_overlay m m5 [(a, part f (bz_setup_size g) n)]).
  { split; [apply Hfr|]. intros x. rewrite Hput. unfold overlay. cbn [fold_left fst snd]. now rewrite part_slice. }
  unfold checked_add in H. destruct (N.ltb_spec (a + n) two64) as [Hlt|Hge]; cbn [ok_or] in H.
  - rewrite lbind_ok in H. eapply Hfin; [exact Henv5'|apply Hfr| |exact H]. right. split; [exact Hfr|]. right. auto.
  - rewrite lbind_err in H. eapply Hfin; [exact Henv5'|apply Hfr| |exact H]. right. split; [exact Hfr|]. right. auto.
Qed.

Lemma host_bz_small be off highmem r m : lenN (rd_data r) < usz ->
  host_bz_load usz be off highmem r m = bz_load be off highmem r m.
Proof.
  intros Hl. unfold host_bz_load, bz_load. rewrite !lbind_lio.
  destruct (seek_end_cases r) as [(r1 & E1 & _)|E1]; rewrite E1; [reflexivity|]. unfold rd_len.
  rewrite (as_usize_small (lenN (rd_data r))) by exact Hl. rewrite !lbind_lio.
  destruct (seek_start (rd_step r (lenN (rd_data r))) 0x1f1) as [r2 [x|]]; [|reflexivity]. rewrite !lbind_lio.
  destruct (read_header r2) as [r3 [h|]]; [|reflexivity].
  destruct (negb (hdr_get "header" h =? 1400005704)); [reflexivity|].
  destruct ((hdr_get "version" h <? 512) || (N.land (hdr_get "loadflags" h) 1 =? 0)); [reflexivity|].
  assert (Hs : hdr_get "setup_sects" h < 256) by (exact (get_lt setup_header [Fld "setup_sects"] h 0 U8 eq_refl)).
  rewrite (as_usize_u32 (hdr_get "setup_sects" h)) by (change (2 ^ 32) with 4294967296; lia). cbv zeta.
  set (s := if hdr_get "setup_sects" h =? 0 then 4 else hdr_get "setup_sects" h).
  assert (Hs' : s < 256) by (unfold s; destruct (hdr_get "setup_sects" h =? 0); lia).
  pose proof usz_ge.
  rewrite (checked_add_lt s 1) by (unfold two64; lia). unfold usize_add, usize_mul, checked_mul.
  rewrite (proj2 (N.ltb_lt (s + 1) usz)), (proj2 (N.ltb_lt ((s + 1) * 512) usz)) by lia.
  rewrite (proj2 (N.ltb_lt ((s + 1) * 512) two64)) by (unfold two64; lia).
  reflexivity.
Qed.
End Width.
