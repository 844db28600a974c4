(** * Elf_proofs: the note parser and the program header loop. *)
From Verif Require Import Base Base_proofs Io Mem SpecMem Mem_proofs Layout Loader Elf SpecFile SpecElf File_proofs Align_proofs.
Open Scope loader_scope.

Lemma lbind_lio {A B} op e (k : A -> L B) r m :
  lbind (lio op e) k r m = match op r with
                           | (r', Some a) => k a r' m
                           | (r', None) => (r', m, Err e)
                           end.
Proof. unfold lbind, lio. destruct (op r) as [r' [a|]]; reflexivity. Qed.
Lemma lbind_ok {A B} a (k : A -> L B) r m : lbind (lpure (Ok a)) k r m = k a r m.
Proof. reflexivity. Qed.
Lemma lbind_err {A B} e (k : A -> L B) r m : lbind (lpure (Err e)) k r m = (r, m, Err e).
Proof. reflexivity. Qed.
Lemma lbind_ret {A B} a (k : A -> L B) r m : lbind (lret a) k r m = k a r m.
Proof. reflexivity. Qed.

(** ** fields of the structs read from the image *)
Lemma nhdr_namesz f o : o + 12 <= lenN f -> nhdr_get "n_namesz" (slice f o 12) = u32at f o.
Proof.
  intros H. unfold nhdr_get. rewrite (get_slice _ _ 0 U32) by (try reflexivity; try assumption; cbn; lia).
  rewrite N.add_0_r. apply le_dec_slice4.
Qed.
Lemma nhdr_descsz f o : o + 12 <= lenN f -> nhdr_get "n_descsz" (slice f o 12) = u32at f (o + 4).
Proof.
  intros H. unfold nhdr_get. rewrite (get_slice _ _ 4 U32) by (try reflexivity; try assumption; cbn; lia).
  apply le_dec_slice4.
Qed.
Lemma nhdr_type f o : o + 12 <= lenN f -> nhdr_get "n_type" (slice f o 12) = u32at f (o + 8).
Proof.
  intros H. unfold nhdr_get. rewrite (get_slice _ _ 8 U32) by (try reflexivity; try assumption; cbn; lia).
  apply le_dec_slice4.
Qed.

Lemma is_xen_iff buf : is_xen buf = true <-> buf = [x58; x65; x6e; x00].
Proof. unfold is_xen, xen_name. destruct (list_eq_dec _ _ _); split; congruence. Qed.
Lemma is_xen_false buf : is_xen buf = false <-> buf <> [x58; x65; x6e; x00].
Proof. unfold is_xen, xen_name. destruct (list_eq_dec _ _ _); split; congruence. Qed.

Section NoteLoop.
Context (bld : build) (phdr f : bytes) (maxpos start fsz : N).
Hypothesis Hstart : phdr_get "p_offset" phdr = start.
Hypothesis Hfsz : phdr_get "p_filesz" phdr = fsz.
Hypothesis Hlen : lenN f < 2 ^ 63.

Let scan := note_scan f maxpos start fsz.

Definition loop_post (rs : N) (r r' : reader) (o : outcome lerror (N * bytes)) : Prop :=
  (read_fault r /\ o = Err (LElf ReadNoteHeader) \/ seek_trouble r /\ o = Err (LElf SeekNoteHeader)) \/
  (exists rs' nh, o = Ok (rs', nh) /\ fsz <= rs' /\ scan rs NoteAbsent) \/
  (exists rs' nh, o = Ok (rs', nh) /\ rs' < fsz /\ start + rs' + 16 <= lenN f /\
     u32at f (start + rs' + 8) = 18 /\ u32at f (start + rs') = 4 /\
     part f (start + rs' + 12) 4 = [x58; x65; x6e; x00] /\
     nh = slice f (start + rs') 12 /\ rd_pos r' = start + rs' + 16 /\
     (forall v, scan rs' v -> scan rs v)) \/
  (exists e, o = Err (LElf e) /\ scan rs (NoteBad e)).

Lemma loop_post_back rs rs2 r r2 r' o :
  rd_same_env r r2 -> (forall v, scan rs2 v -> scan rs v) ->
  loop_post rs2 r2 r' o -> loop_post rs r r' o.
Proof.
  intros He Hs [[(Hf & Ho)|(Hf & Ho)]|[(rs' & nh & Ho & H1 & H2)|[(rs' & nh & Ho & H1 & H2 & H3 & H4 & H5 & H6 & H7 & H8)|(e & Ho & H)]]].
  - left. left. split; [exact (env_rfault _ _ He Hf)|exact Ho].
  - left. right. split; [exact (env_seek _ _ He Hf)|exact Ho].
  - right; left. exists rs', nh. auto.
  - right; right; left. exists rs', nh. do 8 (split; [assumption|]). auto.
  - right; right; right. exists e. auto.
Qed.

Lemma note_loop_spec fuel : forall rs nh r m r' m' o,
  rd_data r = f -> rd_maxpos r = maxpos -> rd_pos r = start + rs ->
  (1 <= fuel)%nat -> lenN f < start + rs + 12 * N.of_nat fuel ->
  note_loop bld fuel phdr rs nh r m = (r', m', o) ->
  m' = m /\ rd_same_env r r' /\ loop_post rs r r' o.
Proof.
  induction fuel as [|fuel IH]; intros rs nh r m r' m' o Hd Hm Hp Hfu Hb H; [lia|].
  cbn [note_loop] in H. rewrite Hfsz in H.
  destruct (N.ltb_spec rs fsz) as [Hlt|Hge]; cbn [negb] in H.
  2:{ inversion H; subst. split; [reflexivity|]. split; [apply rd_same_env_refl|].
      right; left. exists rs, nh. split; [reflexivity|]. split; [assumption|]. now apply ns_end. }
  rewrite lbind_lio in H. change (size Elf64_Nhdr) with 12 in H.
  destruct (read_exact_cases r 12) as [(r1 & E1 & Henv1 & Hwhy)|[E1 Hin]]; rewrite E1 in H.
  { inversion H; subst. split; [reflexivity|]. split; [assumption|]. destruct Hwhy as [Hs|Hs].
    - right; right; right. exists ReadNoteHeader. split; [reflexivity|]. apply ns_no_header; [assumption|]. rewrite Hd, Hp in Hs. lia.
    - left. auto. }
  rewrite Hd, Hp in *. set (r1 := rd_step r (start + rs + 12)) in *.
  assert (Henv1 : rd_same_env r r1) by apply rd_same_env_step.
  rewrite !(nhdr_type f), !(nhdr_namesz f), !(nhdr_descsz f) in H by assumption.
  unfold XEN_ELFNOTE_PHYS32_ENTRY, PVH_NOTE_STR_SZ, ELFNOTE_ALIGN in H.
  (* after the name test *)
  assert (Hskip : forall r2, rd_same_env r r2 ->
    (u32at f (start + rs + 8) = 18 -> u32at f (start + rs) = 4 ->
     start + rs + 16 <= lenN f /\ part f (start + rs + 12) 4 <> [x58; x65; x6e; x00]) ->
    (namesz_aligned <- lpure (align_up bld (u32at f (start + rs)) 4) ;;
     descsz_aligned <- lpure (align_up bld (u32at f (start + rs + 4)) 4) ;;
     if (u32_max <? namesz_aligned) || (u32_max <? descsz_aligned) then lfail (LElf ElfOverflow)
     else
       read_size <- lpure
         (ok_or (match checked_add rs 12 with
                 | Some x => match checked_add x namesz_aligned with
                             | Some y => checked_add y descsz_aligned
                             | None => None
                             end
                 | None => None
                 end) (LElf ElfOverflow)) ;;
       target <- lpure (uadd bld (phdr_get "p_offset" phdr) read_size) ;;
       lio (fun r => seek_start r target) (LElf SeekNoteHeader) ;;;
       note_loop bld fuel phdr read_size (slice f (start + rs) 12)) r2 m = (r', m', o) ->
    m' = m /\ rd_same_env r r' /\ loop_post rs r r' o).
  { clear H. intros r2 Henv2 Hname H.
    rewrite !align_up4, !lbind_ok in H by apply u32at_lt.
    pose proof (u32at_lt f (start + rs)) as Hn1. pose proof (u32at_lt f (start + rs + 4)) as Hn2.
    pose proof (pad4_spec (u32at f (start + rs))) as (Hq1 & Hq1' & _).
    pose proof (pad4_spec (u32at f (start + rs + 4))) as (Hq2 & Hq2' & _).
    change (2 ^ 32) with 4294967296 in Hn1, Hn2. change (2 ^ 63) with 9223372036854775808 in Hlen.
    set (p1 := pad4 (u32at f (start + rs))) in *. set (p2 := pad4 (u32at f (start + rs + 4))) in *.
    destruct (N.ltb_spec u32_max p1) as [Ho1|Ho1]; cbn [orb] in H.
    { inversion H; subst. split; [reflexivity|]. split; [assumption|]. right; right; right.
      exists ElfOverflow. split; [reflexivity|]. apply ns_huge; try assumption. left. fold p1. change (2 ^ 32) with 4294967296.
      unfold u32_max in Ho1. lia. }
    destruct (N.ltb_spec u32_max p2) as [Ho2|Ho2].
    { inversion H; subst. split; [reflexivity|]. split; [assumption|]. right; right; right.
      exists ElfOverflow. split; [reflexivity|]. apply ns_huge; try assumption. right. fold p2. change (2 ^ 32) with 4294967296.
      unfold u32_max in Ho2. lia. }
    unfold u32_max in Ho1, Ho2.
    rewrite (checked_add_lt rs 12), (checked_add_lt (rs + 12)), checked_add_lt in H by (unfold two64; lia).
    unfold ok_or in H. rewrite lbind_ok in H.
    rewrite Hstart, uadd_ok in H by (unfold two64; lia). rewrite lbind_ok, lbind_lio in H.
    destruct (seek_start_cases r2 (start + (rs + 12 + p1 + p2))) as [(r3 & E3 & Henv3 & Hwhy)|[E3 Hin3]]; rewrite E3 in H.
    - inversion H; subst. split; [reflexivity|].
      split; [eapply rd_same_env_trans; eassumption|]. destruct Hwhy as [Hs|Hs].
      + right; right; right. exists SeekNoteHeader. split; [reflexivity|]. apply ns_unseekable; try assumption.
        * fold p1. change (2 ^ 32) with 4294967296. lia.
        * fold p2. change (2 ^ 32) with 4294967296. lia.
        * fold p1 p2. destruct Henv2 as (_ & Em & _). congruence.
      + left. right. split; [exact (env_seek _ _ Henv2 Hs)|]. reflexivity.
    - set (r3 := rd_step r2 (start + (rs + 12 + p1 + p2))) in *.
      assert (Henv3 : rd_same_env r r3) by (eapply rd_same_env_trans; [exact Henv2|apply rd_same_env_step]).
      assert (Hm2 : rd_maxpos r2 = maxpos) by (destruct Henv2 as (_ & Em & _); congruence).
      apply IH in H.
      + destruct H as (-> & Henv4 & Hpost). split; [reflexivity|].
        split; [eapply rd_same_env_trans; eassumption|].
        eapply loop_post_back; [exact Henv3| |exact Hpost].
        intros v Hv. apply ns_skip; try assumption; fold p1 p2.
        * change (2 ^ 32) with 4294967296. lia.
        * change (2 ^ 32) with 4294967296. lia.
        * lia.
      + destruct Henv3 as (Ed & _). congruence.
      + destruct Henv3 as (_ & Em & _). congruence.
      + reflexivity.
      + lia.
      + lia. }
  destruct (N.eqb_spec (u32at f (start + rs + 8)) 18) as [Ht|Ht]; cbn [andb] in H.
  2:{ rewrite lbind_ret in H. apply (Hskip r1); [assumption| |exact H]. intros; contradiction. }
  destruct (N.eqb_spec (u32at f (start + rs)) 4) as [Hs|Hs].
  2:{ rewrite lbind_ret in H. apply (Hskip r1); [assumption| |exact H]. intros; contradiction. }
  unfold lbind at 1 in H. rewrite lbind_lio in H.
  destruct (read_exact_cases r1 4) as [(r2 & E2 & Henv2 & Hwhy)|[E2 Hin2]]; rewrite E2 in H.
  { inversion H; subst. split; [reflexivity|]. split; [exact (rd_same_env_trans _ _ _ Henv1 Henv2)|]. destruct Hwhy as [Hw|Hw].
    - right; right; right. exists ReadNoteHeader. split; [reflexivity|]. apply ns_no_name; try assumption.
      change (lenN (rd_data r) < start + rs + 12 + 4) in Hw. rewrite Hd in Hw. lia.
    - left. left. split; [exact (env_rfault _ _ Henv1 Hw)|]. reflexivity. }
  change (rd_data r1) with (rd_data r) in *. rewrite Hd in *. change (rd_pos r1) with (start + rs + 12) in *.
  set (r2 := rd_step r1 (start + rs + 12 + 4)) in *.
  assert (Henv2 : rd_same_env r r2) by (eapply rd_same_env_trans; [exact Henv1|apply rd_same_env_step]).
  unfold lret at 1 in H.
  destruct (is_xen (slice f (start + rs + 12) 4)) eqn:Ex.
  - apply is_xen_iff in Ex. unfold lret in H. inversion H; subst m' o r'. split; [reflexivity|]. split; [assumption|].
    right; right; left. exists rs, (slice f (start + rs) 12).
    split; [reflexivity|]. split; [assumption|]. split; [lia|]. split; [assumption|]. split; [assumption|].
    split; [now rewrite part_slice|]. split; [reflexivity|]. split; [unfold r2; cbn; lia|auto].
  - apply is_xen_false in Ex. apply (Hskip r2); [assumption| |exact H].
    intros _ _. split; [lia|]. now rewrite part_slice.
Qed.
End NoteLoop.

Lemma note_fuel_ok r s : (1 <= note_fuel r)%nat /\ lenN (rd_data r) < s + 12 * N.of_nat (note_fuel r).
Proof.
  unfold note_fuel, lenN. split; [lia|].
  pose proof (Nat.div_mod (length (rd_data r)) 12 ltac:(lia)). pose proof (Nat.mod_upper_bound (length (rd_data r)) 12 ltac:(lia)).
  lia.
Qed.

(** ** the note parser *)
Lemma parse_elf_note_spec bld phdr r m r' m' o :
  wf_reader r -> parse_elf_note bld phdr r m = (r', m', o) ->
  let p := mkPh (phdr_get "p_type" phdr) (phdr_get "p_offset" phdr) (phdr_get "p_paddr" phdr)
                (phdr_get "p_filesz" phdr) (phdr_get "p_memsz" phdr) in
  m' = m /\ rd_same_env r r' /\
  ((read_fault r /\ o = Err (LElf ReadNoteHeader) \/ seek_trouble r /\ o = Err (LElf SeekNoteHeader)) \/
   (exists v c, note_result (rd_data r) (rd_maxpos r) p v /\ verdict_cap v = Some c /\ o = Ok c) \/
   (exists e, note_result (rd_data r) (rd_maxpos r) p (NoteBad e) /\ o = Err (LElf e))).
Proof.
  intros (Hl & Hmp & _) H p. unfold parse_elf_note in H. rewrite lbind_lio in H.
  set (f := rd_data r) in *. set (start := phdr_get "p_offset" phdr) in *. set (fsz := phdr_get "p_filesz" phdr) in *.
  destruct (seek_start_cases r start) as [(r1 & E1 & Henv1 & Hwhy)|[E1 Hin1]]; rewrite E1 in H.
  { inversion H; subst. split; [reflexivity|]. split; [assumption|]. destruct Hwhy as [Hs|Hs].
    - right; right. exists SeekNoteHeader. split; [|reflexivity]. now apply nr_unseekable.
    - left. auto. }
  set (r1 := rd_step r start) in *.
  assert (Henv1 : rd_same_env r r1) by apply rd_same_env_step.
  unfold lbind at 1 in H.
  destruct (note_loop bld (note_fuel r1) phdr 0 (default_of Elf64_Nhdr) r1 m) as [[r2 m2] o2] eqn:El.
  apply (note_loop_spec bld phdr f (rd_maxpos r) start fsz eq_refl eq_refl Hl) in El;
    [|reflexivity|reflexivity|cbn; lia|exact (proj1 (note_fuel_ok r1 0))
     |pose proof (proj2 (note_fuel_ok r1 (start + 0))) as Hx; exact Hx].
  destruct El as (-> & Henv2 & Hpost).
  assert (Henv : rd_same_env r r2) by (eapply rd_same_env_trans; eassumption).
  destruct Hpost as [Hf|[(rs' & nh & Ho & H1 & H2)|[(rs' & nh & Ho & H1 & H2 & H3 & H4 & H5 & H6 & H7 & H8)|(e & Ho & Hs)]]].
  - destruct Hf as [(Hf & ->)|(Hf & ->)]; inversion H; subst; (split; [reflexivity|]; split; [assumption|]; left).
    + left. split; [exact (env_rfault _ _ Henv1 Hf)|reflexivity].
    + right. split; [exact (env_seek _ _ Henv1 Hf)|reflexivity].
  - rewrite Ho in H. cbn [fst snd] in H. rewrite (proj2 (N.leb_le _ _)) in H by assumption.
    unfold lret in H. inversion H; subst m' o r'. split; [reflexivity|]. split; [assumption|].
    right; left. exists NoteAbsent, PvhEntryNotPresent. split; [|split; reflexivity].
    now apply nr_scan.
  - rewrite Ho in H. cbn [fst snd] in H. rewrite (proj2 (N.leb_gt _ _)) in H by assumption.
    subst nh. rewrite nhdr_namesz in H by lia. rewrite H4 in H.
    change ELFNOTE_ALIGN with 4 in H. rewrite align_up4, lbind_ok, lbind_lio in H by (cbn; lia).
    change (pad4 4) with 4 in H. unfold PVH_NOTE_STR_SZ in H. change (Z.of_N 4 - Z.of_N 4)%Z with 0%Z in H.
    assert (Ed : rd_data r2 = f) by (destruct Henv as (Ed & _); exact Ed).
    assert (Em : rd_maxpos r2 = rd_maxpos r) by (destruct Henv as (_ & Em & _); exact Em).
    destruct (seek_cur_cases r2 0) as [(r3 & E3 & Henv3 & Hwhy)|(E3 & _ & _)]; rewrite E3 in H.
    { inversion H; subst m' o r'. split; [reflexivity|]. split; [exact (rd_same_env_trans _ _ _ Henv Henv3)|].
      rewrite Z.add_0_r, N2Z.id in Hwhy. destruct Hwhy as [Hw|[Hw|Hw]]; [lia|lia|].
      left. right. split; [exact (env_seek _ _ Henv Hw)|]. reflexivity. }
    rewrite Z.add_0_r, N2Z.id, H7 in H. set (r3 := rd_step r2 (start + rs' + 16)) in *.
    assert (Henv3 : rd_same_env r r3) by (eapply rd_same_env_trans; [exact Henv|apply rd_same_env_step]).
    rewrite nhdr_descsz in H by lia.
    destruct (N.ltb_spec (u32at f (start + rs' + 4)) 4) as [Hd4|Hd4].
    { inversion H; subst m' o r'. split; [reflexivity|]. split; [assumption|].
      right; right. exists InvalidPvhNote. split; [|reflexivity]. apply nr_scan; [assumption|]. apply H8. now apply ns_small. }
    rewrite lbind_lio in H.
    destruct (read_exact_cases r3 4) as [(r4 & E4 & Henv4 & Hwhy)|[E4 Hin4]]; rewrite E4 in H.
    + inversion H; subst m' o r'. split; [reflexivity|]. split; [exact (rd_same_env_trans _ _ _ Henv3 Henv4)|]. destruct Hwhy as [Hw|Hw].
      * right; right. exists ReadNoteHeader. split; [|reflexivity]. apply nr_scan; [assumption|]. apply H8.
        apply ns_no_desc; try assumption. change (lenN (rd_data r2) < start + rs' + 16 + 4) in Hw. rewrite Ed in Hw. lia.
      * left. left. split; [exact (env_rfault _ _ Henv3 Hw)|]. reflexivity.
    + unfold lret in H. inversion H; subst m' o r'. split; [reflexivity|].
      split; [eapply rd_same_env_trans; [exact Henv3|apply rd_same_env_step]|].
      unfold r3 in *. cbn in Hin4. cbn [rd_data rd_pos rd_step]. rewrite Ed in *.
      right; left. exists (NoteFound (u32at f (start + rs' + 16))), (PvhEntryPresent (u32at f (start + rs' + 16))).
      split; [|split; [reflexivity|]].
      * apply nr_scan; [assumption|]. apply H8. apply ns_found; try assumption. cbn. lia.
      * rewrite le_dec_slice4. reflexivity.
  - rewrite Ho in H. inversion H; subst. split; [reflexivity|]. split; [assumption|].
    right; right. exists e. split; [|reflexivity]. now apply nr_scan.
Qed.
