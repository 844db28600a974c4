(** * Twin_proofs: loading two images that agree on some of their bytes. *)
From Verif Require Import Base Base_proofs Io Mem Layout Mem_proofs SpecMem SpecFile File_proofs Align_proofs
  Loader Elf BzImage SpecElf SpecBz Elf_proofs Elf_proofs2 Note_proofs Bz_proofs SpecTwin.
Open Scope loader_scope.

Lemma list_ext {A} (l : list A) : forall l', (forall k, nth_error l k = nth_error l' k) -> l = l'.
Proof.
  induction l as [|x l IH]; intros [|y l'] H; try reflexivity.
  - specialize (H 0%nat). discriminate.
  - specialize (H 0%nat). discriminate.
  - pose proof (H 0%nat) as H0. injection H0 as ->. f_equal. apply IH. intros k. exact (H (S k)).
Qed.
Lemma slice_agree (f g : bytes) o n :
  (forall x, o <= x < o + n -> nth_error g (N.to_nat x) = nth_error f (N.to_nat x)) -> slice g o n = slice f o n.
Proof.
  intros H. apply list_ext. intros k. replace k with (N.to_nat (N.of_nat k)) by lia.
  destruct (N.lt_ge_cases (N.of_nat k) n) as [L|L].
  - rewrite !nth_error_slice by exact L. apply H. lia.
  - rewrite !(proj2 (nth_error_None _ _)); [reflexivity| |].
    + pose proof (lenN_slice f o n). unfold lenN in *. lia.
    + pose proof (lenN_slice g o n). unfold lenN in *. lia.
Qed.

Section Twin.
Context (f g : bytes) (R : N -> Prop).
Hypothesis Hle : lenN f <= lenN g.
Hypothesis Hag : forall x, R x -> x < lenN f -> nth_error g (N.to_nat x) = nth_error f (N.to_nat x).

Definition on (lo n : N) : Prop := forall x, lo <= x < lo + n -> R x.
Definition same {A} (x : L A) (r : reader) (m : gmem) : Prop :=
  forall r1 m1 o, x r m = (r1, m1, o) -> (lenN f = lenN g \/ exists a, o = Ok a) ->
  x (with_data g r) m = (with_data g r1, m1, o).

Lemma same_bind {A B} (x : L A) (k : A -> L B) r m :
  same x r m -> (forall r1 m1 a, x r m = (r1, m1, Ok a) -> same (k a) r1 m1) -> same (lbind x k) r m.
Proof.
  intros H1 H2 r2 m2 o H D. unfold lbind in *. destruct (x r m) as [[r1 m1] o1] eqn:E.
  destruct o1 as [a|e|p].
  - rewrite (H1 _ _ _ E) by (right; eauto). exact (H2 _ _ _ eq_refl _ _ _ H D).
  - injection H as <- <- <-. destruct D as [D|[a D]]; [|discriminate]. rewrite (H1 _ _ _ E) by (left; exact D). reflexivity.
  - injection H as <- <- <-. destruct D as [D|[a D]]; [|discriminate]. rewrite (H1 _ _ _ E) by (left; exact D). reflexivity.
Qed.
Lemma same_pure {A} (x : outcome lerror A) r m : same (lpure x) r m.
Proof. intros r1 m1 o H _. injection H as <- <- <-. reflexivity. Qed.
Lemma same_ret {A} (x : A) r m : same (lret x) r m.
Proof. intros r1 m1 o H _. injection H as <- <- <-. reflexivity. Qed.
Lemma same_fail {A} e r m : same (@lfail A e) r m.
Proof. intros r1 m1 o H _. injection H as <- <- <-. reflexivity. Qed.

Lemma same_seek p e r m : same (lio (fun r => seek_start r p) e) r m.
Proof.
  intros r1 m1 o H _. unfold lio, seek_start in *. cbn [with_data rd_fault rd_ops rd_maxpos rd_pos].
  destruct (rd_fault r Seeking (rd_ops r)); [injection H as <- <- <-; reflexivity|].
  destruct (rd_maxpos r <? p); injection H as <- <- <-; reflexivity.
Qed.
Lemma same_by d e r m : same (lio (fun r => seek_cur r d) e) r m.
Proof.
  intros r1 m1 o H _. unfold lio, seek_cur in *. cbn [with_data rd_fault rd_ops rd_maxpos rd_pos].
  destruct (rd_fault r Seeking (rd_ops r)); [injection H as <- <- <-; reflexivity|].
  destruct (_ || _); injection H as <- <- <-; reflexivity.
Qed.
Lemma same_read n e r m : rd_data r = f -> on (rd_pos r) n -> same (lio (fun r => read_exact r n) e) r m.
Proof.
  intros Hd Ho r1 m1 o H D. unfold lio, read_exact, rd_len in *. cbn [with_data rd_fault rd_ops rd_maxpos rd_pos rd_data].
  rewrite Hd in *. destruct (rd_fault r Reading (rd_ops r)); [injection H as <- <- <-; reflexivity|].
  destruct (N.ltb_spec (lenN f) (rd_pos r + n)) as [X|X].
  - injection H as <- <- <-. destruct D as [D|[a D]]; [|discriminate]. rewrite <- D.
    destruct (N.ltb_spec (lenN f) (rd_pos r + n)); [reflexivity|lia].
  - destruct (N.ltb_spec (lenN g) (rd_pos r + n)); [lia|]. injection H as <- <- <-.
    rewrite (slice_agree f g); [reflexivity|]. intros x Hx. apply Hag; [apply Ho; exact Hx|lia].
Qed.
(** A guest read: the same bytes, if there are enough of them or the images are equally long. *)
Lemma same_volatile r n : rd_data r = f -> on (rd_pos r) n -> rd_pos r + n <= lenN f \/ lenN f = lenN g ->
  read_volatile (with_data g r) n = (with_data g (fst (read_volatile r n)), snd (read_volatile r n)).
Proof.
  intros Hd Ho D. unfold read_volatile, rd_len. cbn [with_data rd_fault rd_ops rd_maxpos rd_pos rd_data rd_chunk]. rewrite Hd.
  destruct (rd_fault r Reading (rd_ops r)); [reflexivity|].
  set (k := N.min n (N.min (lenN f - rd_pos r) (N.max 1 (rd_chunk r (rd_ops r))))).
  assert (Ek : N.min n (N.min (lenN g - rd_pos r) (N.max 1 (rd_chunk r (rd_ops r)))) = k).
  { unfold k. destruct D as [D|D]; [|rewrite D; reflexivity]. lia. }
  rewrite Ek. cbn [fst snd]. f_equal. f_equal. apply slice_agree. intros x Hx. apply Hag; [apply Ho; lia|].
  unfold k in *. lia.
Qed.
Lemma same_loop be fuel : forall k r m cur left total r1 m1 o,
  rd_data r = f -> on (rd_pos r) left -> (rd_pos r + left <= lenN f \/ lenN f = lenN g) ->
  o <> Panic OutOfFuel ->
  read_loop be fuel r m cur left total = (r1, m1, o) ->
  read_loop be (fuel + k) (with_data g r) m cur left total = (with_data g r1, m1, o).
Proof.
  induction fuel as [|fuel IH]; intros k r m cur left total r1 m1 o Hd Ho D Hp H; cbn [Nat.add read_loop] in *.
  { injection H as <- <- <-. contradiction. }
  destruct (find_region m cur) as [rg|]; [|injection H as <- <- <-; reflexivity].
  set (n := N.min (r_base rg + r_len rg - cur) left) in *.
  rewrite same_volatile.
  2: exact Hd. 2:{ intros x Hx. apply Ho. lia. } 2:{ destruct D; [left; lia|right; assumption]. }
  destruct (read_volatile r n) as [r2 [bs|]] eqn:Er; cbn [fst snd]; [|injection H as <- <- <-; reflexivity].
  destruct (_ =? 0) eqn:E0; [injection H as <- <- <-; reflexivity|].
  destruct (_ =? left) eqn:E1; [injection H as <- <- <-; reflexivity|].
  destruct (next_addr cur _); [|injection H as <- <- <-; reflexivity].
  pose proof (read_volatile_env _ _ _ _ Er) as (Ed & _).
  apply read_volatile_some in Er as (Hk & _ & Hpos & _).
  set (adv := match be with TryAccess => lenN bs | GetSlices => n end) in *.
  assert (Hadv : lenN bs <= adv /\ adv <= n) by (unfold adv; destruct be; lia).
  apply IH; [congruence| | |exact Hp|exact H].
  - intros x Hx. apply Ho. lia.
  - destruct D; [left; lia|right; assumption].
Qed.
Lemma same_copy be a n e r m : wf_mem m = true -> rd_data r = f -> on (rd_pos r) n -> 0 < n \/ lenN f = lenN g ->
  same (lcopy be a n e) r m.
Proof.
  intros Hw Hd Ho Hn r1 m1 o H D. unfold lcopy in *.
  destruct (read_exact_volatile_from be r m a n) as [[r2 m2] o2] eqn:E.
  pose proof (rev_frame _ _ _ _ _ _ _ _ Hw E) as (_ & _ & Ho2).
  assert (D' : rd_pos r + n <= lenN f \/ lenN f = lenN g).
  { destruct D as [D|[x D]]; [right; exact D|]. destruct Hn as [Hn|Hn]; [|right; exact Hn]. left. subst o.
    destruct Ho2 as [-> | ->]; [|injection H as _ _ H; discriminate H].
    apply rev_ok in E as (_ & _ & E & _); [|exact Hw]. unfold rd_len in E. rewrite Hd in E. exact (E Hn). }
  assert (X : read_exact_volatile_from be (with_data g r) m a n = (with_data g r2, m2, o2)).
  { destruct (N.eq_dec n 0) as [Z|NZ].
    - subst n. destruct be.
      + rewrite rev_unfold in * by discriminate. cbn [with_data rd_data].
        destruct (read_loop TryAccess (S (length (rd_data r) + length (regions m))) r m a 0 0) as [[r3 m3] o3] eqn:El.
        assert (N3 : o3 <> Panic OutOfFuel).
        { apply read_loop_frame in El as (_ & _ & El); [|exact Hw|apply read_measure_fuel].
          destruct El as [-> |[q ->]]; discriminate. }
        replace (S (length g + length (regions m))) with (S (length (rd_data r) + length (regions m)) + (length g - length (rd_data r)))%nat
          by (rewrite Hd; unfold lenN in Hle; lia).
        rewrite (same_loop TryAccess _ _ _ _ _ _ _ _ _ _ Hd Ho D' N3 El).
        destruct o3; injection E as <- <- <-; reflexivity.
      + cbn in E |- *. injection E as <- <- <-. reflexivity.
    - rewrite rev_unfold in * by (intros; assumption). cbn [with_data rd_data].
      destruct (read_loop be (S (length (rd_data r) + length (regions m))) r m a n 0) as [[r3 m3] o3] eqn:El.
      assert (N3 : o3 <> Panic OutOfFuel).
      { apply read_loop_frame in El as (_ & _ & El); [|exact Hw|apply read_measure_fuel].
        destruct El as [-> |[q ->]]; discriminate. }
      replace (S (length g + length (regions m))) with (S (length (rd_data r) + length (regions m)) + (length g - length (rd_data r)))%nat
        by (rewrite Hd; unfold lenN in Hle; lia).
      rewrite (same_loop be _ _ _ _ _ _ _ _ _ _ Hd Ho D' N3 El).
      destruct o3; injection E as <- <- <-; reflexivity. }
  rewrite X. destruct o2; injection H as <- <- <-; reflexivity.
Qed.

(** ** ELF *)
Hypothesis Hf63 : lenN f < 2 ^ 63.

Lemma same_phdrs n : forall r m, rd_data r = f -> on (rd_pos r) (56 * N.of_nat n) -> same (read_phdrs n) r m.
Proof.
  induction n as [|n IH]; intros r m Hd Ho; [apply same_ret|]. cbn [read_phdrs].
  apply same_bind.
  - apply same_read; [exact Hd|]. intros x Hx. apply Ho. change (size Elf64_Phdr) with 56 in Hx. lia.
  - intros r1 m1 b Hb. unfold lio in Hb. change (size Elf64_Phdr) with 56 in Hb.
    destruct (read_exact_cases r 56) as [(r' & E & _)|(E & _)]; rewrite E in Hb; [discriminate|].
    injection Hb as <- <- <-. apply same_bind; [|intros; apply same_ret].
    apply IH; [exact Hd|]. intros x Hx. cbn [rd_step rd_pos] in Hx. apply Ho. lia.
Qed.

Lemma u32_get t b path o : locate t path = Some (o, U32) -> get t path b < 2 ^ 32.
Proof. intros H. pose proof (get_lt t path b o U32 H) as X. exact X. Qed.

Lemma same_notes bld phdr fuel : forall k rs nh r m,
  rd_data r = f -> rd_pos r = phdr_get "p_offset" phdr + rs ->
  on (phdr_get "p_offset" phdr) (phdr_get "p_filesz" phdr + 19) ->
  forall r1 m1 o, note_loop bld fuel phdr rs nh r m = (r1, m1, o) -> o <> Panic OutOfFuel ->
  (lenN f = lenN g \/ exists a, o = Ok a) ->
  note_loop bld (fuel + k) phdr rs nh (with_data g r) m = (with_data g r1, m1, o) /\
  forall a, o = Ok a -> rd_data r1 = f /\ m1 = m /\
    (phdr_get "p_filesz" phdr <= fst a \/
     rd_pos r1 = phdr_get "p_offset" phdr + fst a + 16 /\ nhdr_get "n_namesz" (snd a) = 4).
Proof.
  induction fuel as [|fuel IH]; intros k rs nh r m Hd Hp Ho r1 m1 o H Hof D; cbn [Nat.add note_loop] in *.
  { injection H as <- <- <-. contradiction. }
  destruct (N.ltb_spec rs (phdr_get "p_filesz" phdr)) as [Lr|Lr]; cbn [negb] in *.
  2:{ injection H as <- <- <-. split; [reflexivity|]. intros a Ha. injection Ha as <-. split; [exact Hd|]. split; [reflexivity|]. left. exact Lr. }
  rewrite lbind_lio in H. change (size Elf64_Nhdr) with 12 in *.
  pose proof (same_read 12 (LElf ReadNoteHeader) r m Hd ltac:(intros x Hx; apply Ho; lia)) as SR.
  unfold same, lio in SR. rewrite lbind_lio.
  destruct (read_exact_cases r 12) as [(r' & E & _)|(E & Lf)]; rewrite E in *.
  { injection H as <- <- <-. specialize (SR _ _ _ eq_refl ltac:(destruct D as [D|[? D]]; [left; exact D|discriminate])). destruct (read_exact (with_data g r) 12) as [r2 [b|]]; [discriminate|].
    injection SR as ->. split; [reflexivity|]. intros a Ha. discriminate. }
  specialize (SR _ _ _ eq_refl ltac:(right; eauto)). destruct (read_exact (with_data g r) 12) as [r2 [b|]]; [|discriminate].
  injection SR as -> ->. set (r3 := rd_step r (rd_pos r + 12)) in *. set (nb := slice (rd_data r) (rd_pos r) 12) in *.
  assert (D3 : rd_data r3 = f) by exact Hd. rewrite Hd in Lf.
  (* the name *)
  set (C1 := (nhdr_get "n_type" nb =? XEN_ELFNOTE_PHYS32_ENTRY) && (nhdr_get "n_namesz" nb =? PVH_NOTE_STR_SZ)) in *.
  assert (Rest : forall r4, rd_data r4 = f ->
    forall rz mz oz,
    (if false : bool then lret (rs, nb) else
      namesz_aligned <- lpure (align_up bld (nhdr_get "n_namesz" nb) ELFNOTE_ALIGN) ;;
      descsz_aligned <- lpure (align_up bld (nhdr_get "n_descsz" nb) ELFNOTE_ALIGN) ;;
      if (u32_max <? namesz_aligned) || (u32_max <? descsz_aligned) then lfail (LElf ElfOverflow)
      else
        read_size <- lpure
          (ok_or (match checked_add rs 12 with
                  | Some x => match checked_add x namesz_aligned with
                              | Some y => checked_add y descsz_aligned
                              | None => None
                              end
                  | None => None
                  end) (LElf ElfOverflow)) ;;
        target <- lpure (uadd bld (phdr_get "p_offset" phdr) read_size) ;;
        lio (fun r => seek_start r target) (LElf SeekNoteHeader) ;;;
        note_loop bld fuel phdr read_size nb) r4 m = (rz, mz, oz) -> oz <> Panic OutOfFuel ->
    (lenN f = lenN g \/ exists a, oz = Ok a) ->
    (namesz_aligned <- lpure (align_up bld (nhdr_get "n_namesz" nb) ELFNOTE_ALIGN) ;;
      descsz_aligned <- lpure (align_up bld (nhdr_get "n_descsz" nb) ELFNOTE_ALIGN) ;;
      if (u32_max <? namesz_aligned) || (u32_max <? descsz_aligned) then lfail (LElf ElfOverflow)
      else
        read_size <- lpure
          (ok_or (match checked_add rs 12 with
                  | Some x => match checked_add x namesz_aligned with
                              | Some y => checked_add y descsz_aligned
                              | None => None
                              end
                  | None => None
                  end) (LElf ElfOverflow)) ;;
        target <- lpure (uadd bld (phdr_get "p_offset" phdr) read_size) ;;
        lio (fun r => seek_start r target) (LElf SeekNoteHeader) ;;;
        note_loop bld (fuel + k) phdr read_size nb) (with_data g r4) m = (with_data g rz, mz, oz) /\
    forall a, oz = Ok a -> rd_data rz = f /\ mz = m /\
    (phdr_get "p_filesz" phdr <= fst a \/
     rd_pos rz = phdr_get "p_offset" phdr + fst a + 16 /\ nhdr_get "n_namesz" (snd a) = 4)).
  { intros r4 D4 rz mz oz HH Hz Dz. cbn beta iota in HH.
    destruct (align_up bld (nhdr_get "n_namesz" nb) ELFNOTE_ALIGN) as [na|ea|pa];
      [rewrite lbind_ok in *|injection HH as <- <- <-; split; [reflexivity|discriminate]|injection HH as <- <- <-; split; [reflexivity|discriminate]].
    destruct (align_up bld (nhdr_get "n_descsz" nb) ELFNOTE_ALIGN) as [da|ea|pa];
      [rewrite lbind_ok in *|injection HH as <- <- <-; split; [reflexivity|discriminate]|injection HH as <- <- <-; split; [reflexivity|discriminate]].
    destruct (N.ltb_spec u32_max na) as [|Ln]; [injection HH as <- <- <-; split; [reflexivity|discriminate]|].
    destruct (N.ltb_spec u32_max da) as [|Ld]; [injection HH as <- <- <-; split; [reflexivity|discriminate]|]. cbn [orb] in *.
    unfold u32_max in Ln, Ld. unfold checked_add in *.
    assert (Lf' : rs + 12 + na + da + phdr_get "p_offset" phdr < two64).
    { unfold two64. change (2 ^ 63) with 9223372036854775808 in Hf63. lia. }
    destruct (N.ltb_spec (rs + 12) two64); [|unfold two64 in *; lia].
    destruct (N.ltb_spec (rs + 12 + na) two64); [|unfold two64 in *; lia].
    destruct (N.ltb_spec (rs + 12 + na + da) two64); [|unfold two64 in *; lia].
    cbn [ok_or] in *. rewrite lbind_ok in *. rewrite uadd_ok in * by lia. rewrite lbind_ok in *.
    rewrite lbind_lio in *.
    pose proof (same_seek (phdr_get "p_offset" phdr + (rs + 12 + na + da)) (LElf SeekNoteHeader) r4 m) as SS.
    unfold same, lio in SS.
    destruct (seek_start_cases r4 (phdr_get "p_offset" phdr + (rs + 12 + na + da))) as [(r' & E4 & _)|(E4 & _)]; rewrite E4 in *.
    { injection HH as <- <- <-. specialize (SS _ _ _ eq_refl ltac:(destruct Dz as [Dz|[? Dz]]; [left; exact Dz|discriminate])).
      destruct (seek_start (with_data g r4) _) as [r5 [b5|]]; [discriminate|]. injection SS as ->. split; [reflexivity|]. discriminate. }
    specialize (SS _ _ _ eq_refl ltac:(right; eauto)).
    destruct (seek_start (with_data g r4) _) as [r5 [b5|]]; [|discriminate]. injection SS as -> ->.
    apply IH; try assumption. reflexivity. }
  destruct C1 eqn:EC.
  - apply andb_true_iff in EC as [_ EC]. apply N.eqb_eq in EC. unfold PVH_NOTE_STR_SZ in EC.
    assert (Hpos3 : rd_pos r3 = phdr_get "p_offset" phdr + rs + 12) by (unfold r3; cbn [rd_step rd_pos]; lia).
    pose proof (same_read PVH_NOTE_STR_SZ (LElf ReadNoteHeader) r3 m D3 ltac:(intros x Hx; apply Ho; unfold PVH_NOTE_STR_SZ in Hx; lia)) as SR.
    unfold same, lio in SR. unfold lbind at 1 in H. unfold lbind at 1. rewrite lbind_lio in *.
    destruct (read_exact_cases r3 PVH_NOTE_STR_SZ) as [(r' & E4 & _)|(E4 & Lf4)]; rewrite E4 in *.
    { injection H as <- <- <-. specialize (SR _ _ _ eq_refl ltac:(destruct D as [D|[? D]]; [left; exact D|discriminate])). destruct (read_exact (with_data g r3) PVH_NOTE_STR_SZ) as [r5 [b5|]]; [discriminate|].
      injection SR as ->. split; [reflexivity|discriminate]. }
    specialize (SR _ _ _ eq_refl ltac:(right; eauto)).
    destruct (read_exact (with_data g r3) PVH_NOTE_STR_SZ) as [r5 [b5|]]; [|discriminate]. injection SR as -> ->.
    set (r6 := rd_step r3 _) in *. unfold lret in H at 1. unfold lret at 1.
    destruct (is_xen _) in *.
    + injection H as <- <- <-. split; [reflexivity|]. intros a Ha. injection Ha as <-. cbn [fst snd].
      split; [exact D3|]. split; [reflexivity|]. right. split; [unfold r6; cbn [rd_step rd_pos]; rewrite Hpos3; unfold PVH_NOTE_STR_SZ; lia|exact EC].
    + exact (Rest r6 D3 _ _ _ H Hof D).
  - rewrite lbind_ret in *. exact (Rest r3 D3 _ _ _ H Hof D).
Qed.
Lemma fuel_grows r : rd_data r = f -> exists k, note_fuel (with_data g r) = (note_fuel r + k)%nat.
Proof.
  intros Hd. unfold note_fuel. cbn [with_data rd_data]. rewrite Hd. exists (length g / 12 - length f / 12)%nat.
  assert (length f / 12 <= length g / 12)%nat by (apply Nat.div_le_mono; [lia|unfold lenN in Hle; lia]). lia.
Qed.
Lemma same_note bld phdr r m : wf_reader r -> rd_data r = f ->
  on (phdr_get "p_offset" phdr) (phdr_get "p_filesz" phdr + 19) -> same (parse_elf_note bld phdr) r m.
Proof.
  intros Hw Hd Ho. unfold parse_elf_note. apply same_bind; [apply same_seek|].
  intros r1 m1 u Hs. unfold lio in Hs.
  destruct (seek_start_cases r (phdr_get "p_offset" phdr)) as [(r' & E & _)|(E & _)]; rewrite E in Hs; [discriminate|].
  injection Hs as <- <- _. set (r2 := rd_step r (phdr_get "p_offset" phdr)).
  assert (D2 : rd_data r2 = f) by exact Hd.
  assert (W2 : wf_reader r2) by exact Hw.
  assert (P2 : rd_pos r2 = phdr_get "p_offset" phdr + 0) by (cbn [r2 rd_step rd_pos]; lia).
  destruct (fuel_grows r2 D2) as [k Ek].
  assert (Q : forall r1 m1 o, note_loop bld (note_fuel r2) phdr 0 (default_of Elf64_Nhdr) r2 m = (r1, m1, o) -> o <> Panic OutOfFuel).
  { intros r1 m1 o El. destruct (note_loop_bound bld phdr 0 r2 m W2 eq_refl) as [_ X]. rewrite El in X. apply X. }
  apply same_bind.
  - intros r3 m3 o Hl D. rewrite Ek. apply (same_notes bld phdr _ k 0 _ r2 m D2 P2 Ho r3 m3 o Hl (Q _ _ _ Hl) D).
  - intros r3 m3 a Hl.
    destruct (same_notes bld phdr _ k 0 _ r2 m D2 P2 Ho r3 m3 (Ok a) Hl ltac:(discriminate) ltac:(right; eauto)) as [_ X].
    destruct (X a eq_refl) as (D3 & -> & Y). clear X. cbv zeta.
    destruct (N.leb_spec (phdr_get "p_filesz" phdr) (fst a)) as [Z|Z]; [apply same_ret|].
    destruct Y as [Y|[P3 Nm]]; [lia|]. rewrite Nm.
    replace (align_up bld 4 ELFNOTE_ALIGN) with (@Ok lerror N 4) by (destruct bld; reflexivity).
    apply same_bind; [apply same_pure|]. intros r4 m4 na Hna. injection Hna as <- <- <-.
    apply same_bind; [apply same_by|]. intros r5 m5 v Hv. unfold lio in Hv.
    change (Z.of_N 4 - Z.of_N PVH_NOTE_STR_SZ)%Z with 0%Z in Hv.
    destruct (seek_cur_cases r3 0) as [(r' & E5 & _)|(E5 & _)]; rewrite E5 in Hv; [discriminate|].
    injection Hv as <- <- _. rewrite Z.add_0_r, N2Z.id in *.
    destruct (nhdr_get "n_descsz" (snd a) <? 4); [apply same_fail|].
    apply same_bind; [|intros; apply same_ret]. apply same_read; [exact D3|].
    cbn [rd_step rd_pos]. rewrite P3. intros x Hx. apply Ho. lia.
Qed.

(** What a program header makes the loader look at. *)
Definition looks (off : option N) (b : bytes) : Prop :=
  (phdr_get "p_type" b = 1 -> phdr_get "p_filesz" b <> 0 -> on (phdr_get "p_offset" b) (phdr_get "p_filesz" b)) /\
  (off = None -> phdr_get "p_type" b = 4 -> on (phdr_get "p_offset" b) (phdr_get "p_filesz" b + 19)).
Lemma same_load bld be off bs : Forall (looks off) bs -> forall kend cap r m,
  wf_mem m = true -> wf_reader r -> rd_data r = f -> same (load_phdrs bld be off bs kend cap) r m.
Proof.
  induction 1 as [|b bs [H1 H2] _ IH]; intros kend cap r m Hm Hw Hd; [apply same_ret|]. cbn [load_phdrs].
  unfold PT_LOAD, PT_NOTE.
  destruct (N.eqb_spec (phdr_get "p_type" b) 1) as [T1|T1], (N.eqb_spec (phdr_get "p_filesz" b) 0) as [Z|Z]; cbn [negb orb].
  2:{ apply same_bind; [apply same_seek|]. intros r1 m1 u Hs. unfold lio in Hs.
      destruct (seek_start_cases r (phdr_get "p_offset" b)) as [(r' & E & _)|(E & _)]; rewrite E in Hs; [discriminate|].
      injection Hs as <- <- _. apply same_bind; [apply same_pure|]. intros r1 m1 a Ha. injection Ha as <- <- _.
      apply same_bind.
      - apply same_copy; [exact Hm|exact Hd|exact (H1 T1 Z)|left; lia].
      - intros r1 m1 u' Hc. unfold lcopy in Hc.
        destruct (read_exact_volatile_from be (rd_step r (phdr_get "p_offset" b)) m a (phdr_get "p_filesz" b)) as [[r2 m2] o2] eqn:Ec.
        pose proof (rev_frame _ _ _ _ _ _ _ _ Hm Ec) as ([Hreg _] & Henv & _).
        destruct o2; [|discriminate|discriminate]. injection Hc as <- <- _.
        apply same_bind; [apply same_pure|]. intros r3 m3 ke Hk. injection Hk as <- <- _.
        apply IH.
        + unfold wf_mem in *. rewrite Hreg. exact Hm.
        + apply (env_wf _ _ Henv). exact Hw.
        + destruct Henv as (Ed & _). rewrite Ed. exact Hd. }
  all: destruct (N.eqb_spec (phdr_get "p_type" b) 4) as [T4|T4]; [destruct off as [ko|]|];
    (apply same_bind; [first [apply same_ret|apply same_note; [exact Hw|exact Hd|exact (H2 eq_refl T4)]]|]).
  all: intros r1 m1 c Hc.
  all: first [injection Hc as <- <- _; apply IH; assumption
             |destruct (parse_elf_note_spec _ _ _ _ _ _ _ Hw Hc) as (-> & Henv & _);
              apply IH; [exact Hm|exact (env_wf _ _ Henv Hw)|destruct Henv as (Ed & _); rewrite Ed; exact Hd]].
Qed.
End Twin.
