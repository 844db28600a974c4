(** * Elf_proofs2: the program header loop and the whole ELF loader. *)
From Verif Require Import Base Base_proofs Io Mem SpecMem Mem_proofs Layout Loader Elf SpecFile SpecElf File_proofs Align_proofs Elf_proofs.
Open Scope loader_scope.

Definition ph_of (b : bytes) : ph :=
  mkPh (phdr_get "p_type" b) (phdr_get "p_offset" b) (phdr_get "p_paddr" b)
       (phdr_get "p_filesz" b) (phdr_get "p_memsz" b).

Lemma get_lt t path bs o t' : locate t path = Some (o, t') -> get t path bs < 256 ^ size t'.
Proof.
  intros H. unfold get. rewrite H. eapply N.lt_le_trans; [apply le_dec_bound|].
  apply N.pow_le_mono_r; [lia|]. rewrite lenN_slice. lia.
Qed.

Lemma paddr_lt b : phdr_get "p_paddr" b < two64.
Proof. unfold phdr_get. eapply (get_lt _ _ _ 24 U64). reflexivity. Qed.

Lemma ph_of_slice f o :
  o + 56 <= lenN f ->
  ph_of (slice f o 56) = mkPh (u32at f o) (u64at f (o + 8)) (u64at f (o + 24)) (u64at f (o + 32)) (u64at f (o + 40)).
Proof.
  intros H. unfold ph_of, phdr_get.
  rewrite (get_slice _ _ 0 U32), (get_slice _ _ 8 U64), (get_slice _ _ 24 U64), (get_slice _ _ 32 U64), (get_slice _ _ 40 U64)
    by (try reflexivity; try assumption; cbn; lia).
  rewrite N.add_0_r, <- le_dec_slice4, <- !le_dec_slice8. reflexivity.
Qed.

(** ** reading the program header table *)
Lemma read_phdrs_spec n : forall r m r' m' o,
  read_phdrs n r m = (r', m', o) ->
  m' = m /\ rd_same_env r r' /\
  ((o = Ok (map (fun i => slice (rd_data r) (rd_pos r + 56 * N.of_nat i) 56) (seq 0 n)) /\
    (rd_pos r + 56 * N.of_nat n <= lenN (rd_data r) \/ n = O)) \/
   (o = Err (LElf ReadProgramHeader) /\
    (read_fault r \/ (n <> O /\ lenN (rd_data r) < rd_pos r + 56 * N.of_nat n)))).
Proof.
  induction n as [|n IH]; intros r m r' m' o H; cbn [read_phdrs] in H.
  { inversion H; subst. split; [reflexivity|]. split; [apply rd_same_env_refl|]. left. split; [reflexivity|auto]. }
  rewrite lbind_lio in H. change (size Elf64_Phdr) with 56 in H.
  destruct (read_exact_cases r 56) as [(r1 & E1 & Henv1 & Hwhy)|[E1 Hin]]; rewrite E1 in H.
  { inversion H; subst. split; [reflexivity|]. split; [assumption|]. right. split; [reflexivity|].
    destruct Hwhy as [Hw|Hw]; [right; split; [lia|lia]|left; exact Hw]. }
  set (r1 := rd_step r (rd_pos r + 56)) in *.
  assert (Henv1 : rd_same_env r r1) by apply rd_same_env_step.
  unfold lbind in H. destruct (read_phdrs n r1 m) as [[r2 m2] o2] eqn:E2.
  apply IH in E2 as (-> & Henv2 & Hpost). pose proof (rd_same_env_trans _ _ _ Henv1 Henv2) as Henv.
  change (rd_data r1) with (rd_data r) in Hpost. change (rd_pos r1) with (rd_pos r + 56) in Hpost.
  destruct Hpost as [(-> & Hl)|(-> & Hl)]; cbn in H; inversion H; subst; (split; [reflexivity|]; split; [assumption|]).
  - left. split.
    + f_equal. cbn [seq map]. f_equal; [f_equal; lia|]. rewrite <- seq_shift, map_map. apply map_ext. intros i. f_equal. lia.
    + left. destruct Hl as [Hl|Hl]; lia.
  - right. split; [reflexivity|]. destruct Hl as [Hl|[H0 Hl]].
    + left. exact (env_rfault _ _ Henv1 Hl).
    + right. split; [lia|]. lia.
Qed.

(** ** the loop over the program headers *)
Section Loop.
Context (bld : build) (be : backend) (off : option N).

(** capability after the loop, starting from [cap] *)
Inductive cap_after (f : bytes) (maxpos : N) (cap : pvh_cap) : list ph -> pvh_cap -> Prop :=
| ca_none ps : (forall p, In p ps -> is_note p = false) -> cap_after f maxpos cap ps cap
| ca_offset ps k p : off = Some k -> In p ps -> is_note p = true -> cap_after f maxpos cap ps PvhEntryIgnored
| ca_last pre p post v c : off = None -> is_note p = true ->
    (forall q, In q post -> is_note q = false) ->
    note_result f maxpos p v -> verdict_cap v = Some c ->
    cap_after f maxpos cap (pre ++ p :: post) c.

Lemma cap_after_cons f maxpos cap p ps c :
  is_note p = false -> cap_after f maxpos cap ps c -> cap_after f maxpos cap (p :: ps) c.
Proof.
  intros Hp [ps' H|ps' k q Hk Hq Hn|pre q post v c' H1 H2 H3 H4 H5].
  - apply ca_none. intros q [<-|Hq]; auto.
  - eapply ca_offset; [exact Hk|right; exact Hq|exact Hn].
  - change (p :: pre ++ q :: post) with ((p :: pre) ++ q :: post). eapply ca_last; eassumption.
Qed.

Lemma cap_after_ignored f maxpos cap p ps c k :
  off = Some k -> is_note p = true -> cap_after f maxpos PvhEntryIgnored ps c -> cap_after f maxpos cap (p :: ps) c.
Proof.
  intros Hk Hp [ps' H|ps' k' q Hk' Hq Hn|pre q post v c' H1 H2 H3 H4 H5].
  - eapply ca_offset; [exact Hk|left; reflexivity|exact Hp].
  - eapply ca_offset; [exact Hk|left; reflexivity|exact Hp].
  - congruence.
Qed.

Lemma cap_after_note f maxpos cap p ps c v c1 :
  off = None -> is_note p = true -> note_result f maxpos p v -> verdict_cap v = Some c1 ->
  cap_after f maxpos c1 ps c -> cap_after f maxpos cap (p :: ps) c.
Proof.
  intros Ho Hp Hr Hv [ps' H|ps' k' q Hk' Hq Hn|pre q post v' c' H1 H2 H3 H4 H5].
  - apply (ca_last f maxpos cap [] p ps' v c1); assumption.
  - congruence.
  - change (p :: pre ++ q :: post) with ((p :: pre) ++ q :: post). eapply ca_last; eassumption.
Qed.

Lemma cap_after_caps f maxpos ps c : cap_after f maxpos PvhEntryIgnored ps c -> caps f maxpos off ps c.
Proof.
  intros [ps' H|ps' k' q Hk' Hq Hn|pre q post v' c' H1 H2 H3 H4 H5].
  - now apply caps_none.
  - eapply caps_offset; eassumption.
  - eapply caps_last; eassumption.
Qed.

Definition untouched (m m' : gmem) (ps : list ph) : Prop :=
  forall x, (forall p, In p ps -> ~ seg_dest off p x) -> gm_byte m' x = gm_byte m x.

Definition phdrs_post (ps : list ph) (kend : N) (cap : pvh_cap) (r : reader) (m m' : gmem)
  (o : outcome lerror (N * pvh_cap)) : Prop :=
  (exists c, o = Ok (N.max kend (max_end off ps), c) /\
     Forall (ph_fine (rd_data r) (rd_maxpos r) m off) ps /\
     mem_is_overlay m m' (segs_of (rd_data r) off ps) /\
     cap_after (rd_data r) (rd_maxpos r) cap ps c) \/
  (exists pre p post e, ps = pre ++ p :: post /\ o = Err e /\
     Forall (ph_fine (rd_data r) (rd_maxpos r) m off) pre /\
     ph_error (rd_data r) (rd_maxpos r) m off p e /\
     (forall x, ~ seg_dest off p x ->
        gm_byte m' x = overlay (gm_byte m) (segs_of (rd_data r) off pre) x)) \/
  (exists pre p post e, ps = pre ++ p :: post /\ o = Err e /\
     Forall (ph_fine (rd_data r) (rd_maxpos r) m off) pre /\
     ph_trouble be r off p e /\
     (forall x, ~ seg_dest off p x ->
        gm_byte m' x = overlay (gm_byte m) (segs_of (rd_data r) off pre) x)).

Lemma ph_trouble_env r r' p e : rd_same_env r r' -> ph_trouble be r' off p e -> ph_trouble be r off p e.
Proof.
  intros He [H1 H2|H1 H2 H3 H4|H1 H2 H3 H4|H1 H2 H3 H4].
  - apply pt_seek; [assumption|exact (env_seek _ _ He H2)].
  - apply pt_read; [assumption| |assumption|exact (env_rtrouble _ _ _ He H4)]. destruct He as (_ & Em & _). congruence.
  - apply pt_note_seek; try assumption. exact (env_seek _ _ He H4).
  - apply pt_note_read; try assumption. exact (env_rfault _ _ He H4).
Qed.

Lemma ph_fine_regions f maxpos m m' p :
  regions m' = regions m -> ph_fine f maxpos m' off p -> ph_fine f maxpos m off p.
Proof.
  intros Hr [H1 H2 H3 H4|v c H1 H2 H3 H4 H5|k H1 H2 H3|H1 H2].
  - apply pf_load; try assumption. apply (range_backed_regions m m' _ _ Hr). exact H3.
  - eapply pf_note; eassumption.
  - eapply pf_note_ignored; eassumption.
  - apply pf_other; assumption.
Qed.

Lemma ph_error_regions f maxpos m m' p e :
  regions m' = regions m -> ph_error f maxpos m' off p e -> ph_error f maxpos m off p e.
Proof.
  intros Hr [H1 H2|H1 H2 H3|H1 H2 H3 [H4|H4]|H1 H2 H3 H4 H5|e' H1 H2 H3 H4].
  - apply pe_seek; assumption.
  - apply pe_addr; assumption.
  - apply pe_read; try assumption. now left.
  - apply pe_read; try assumption. right. intros H. apply H4. apply (range_backed_regions m m' _ _ Hr). exact H.
  - apply pe_end; try assumption. apply (range_backed_regions m m' _ _ Hr). exact H4.
  - eapply pe_note; eassumption.
Qed.

(** The tail of the loop after a header that wrote [segs_of [p]]. *)
Lemma phdrs_post_cons p ps kend kend1 cap cap1 r r1 m m1 m' o :
  rd_same_env r r1 -> regions m1 = regions m ->
  ph_fine (rd_data r) (rd_maxpos r) m off p ->
  (forall x, gm_byte m1 x = overlay (gm_byte m) (segs_of (rd_data r) off [p]) x) ->
  N.max kend1 (max_end off ps) = N.max kend (max_end off (p :: ps)) ->
  (forall c, cap_after (rd_data r) (rd_maxpos r) cap1 ps c -> cap_after (rd_data r) (rd_maxpos r) cap (p :: ps) c) ->
  phdrs_post ps kend1 cap1 r1 m1 m' o -> phdrs_post (p :: ps) kend cap r m m' o.
Proof.
  intros Henv Hreg Hfine Hput Hk Hcap. unfold phdrs_post. pose proof Henv as (Ed & Em & Ec & Ef). rewrite Ed, Em.
  assert (Hsegs : forall l, segs_of (rd_data r) off (p :: l) = segs_of (rd_data r) off [p] ++ segs_of (rd_data r) off l).
  { intros l. unfold segs_of, loaded. cbn [filter map]. destruct (is_load p); reflexivity. }
  intros [(c & -> & Hf & [Hr Ho] & Hc)|[(pre & q & post & e & -> & -> & Hf & He & Ho)|(pre & q & post & e & -> & -> & Hf & He & Ho)]].
  - left. exists c. split; [now rewrite Hk|]. split; [|split].
    + constructor; [exact Hfine|]. eapply Forall_impl; [|exact Hf]. intros q. now apply ph_fine_regions.
    + split; [congruence|]. intros x. rewrite Ho, Hsegs, overlay_app. apply overlay_ext. exact Hput.
    + now apply Hcap.
  - right; left. exists (p :: pre), q, post, e. split; [reflexivity|]. split; [reflexivity|]. split; [|split].
    + constructor; [exact Hfine|]. eapply Forall_impl; [|exact Hf]. intros q'. now apply ph_fine_regions.
    + eapply ph_error_regions; eassumption.
    + intros x Hx. rewrite (Ho x Hx), Hsegs, overlay_app. apply overlay_ext. exact Hput.
  - right; right. exists (p :: pre), q, post, e. split; [reflexivity|]. split; [reflexivity|]. split; [|split].
    + constructor; [exact Hfine|]. eapply Forall_impl; [|exact Hf]. intros q'. now apply ph_fine_regions.
    + exact (ph_trouble_env _ _ _ _ Henv He).
    + intros x Hx. rewrite (Ho x Hx), Hsegs, overlay_app. apply overlay_ext. exact Hput.
Qed.

Lemma load_phdrs_spec phdrs : forall kend cap r m r' m' o,
  wf_reader r -> wf_mem m = true ->
  load_phdrs bld be off phdrs kend cap r m = (r', m', o) ->
  rd_same_env r r' /\ regions m' = regions m /\ untouched m m' (map ph_of phdrs) /\
  phdrs_post (map ph_of phdrs) kend cap r m m' o.
Proof.
  induction phdrs as [|b phdrs IH]; intros kend cap r m r' m' o Hwr Hwm H; cbn [load_phdrs map] in H |- *.
  { inversion H; subst. split; [apply rd_same_env_refl|]. split; [reflexivity|]. split; [intros x _; reflexivity|].
    left. exists cap. split; [f_equal; f_equal; unfold max_end; cbn; lia|]. split; [constructor|].
    split; [split; reflexivity|]. apply ca_none. intros p []. }
  set (p := ph_of b) in *. set (ps := map ph_of phdrs) in *.
  assert (Hty : phdr_get "p_type" b = ph_type p) by reflexivity.
  assert (Hfz : phdr_get "p_filesz" b = ph_filesz p) by reflexivity.
  assert (Hof : phdr_get "p_offset" b = ph_offset p) by reflexivity.
  assert (Hpa : phdr_get "p_paddr" b = ph_paddr p) by reflexivity.
  assert (Hms : phdr_get "p_memsz" b = ph_memsz p) by reflexivity.
  assert (Hload : negb (phdr_get "p_type" b =? PT_LOAD) || (phdr_get "p_filesz" b =? 0) = negb (is_load p)).
  { unfold is_load. rewrite negb_andb, negb_involutive. reflexivity. }
  rewrite Hload in H. destruct (is_load p) eqn:El; cbn [negb] in H.
  2:{ (* not loaded *)
    assert (Hnil : forall l, segs_of (rd_data r) off (p :: l) = segs_of (rd_data r) off l).
    { intros l. unfold segs_of, loaded. cbn [filter]. now rewrite El. }
    assert (Hmax : max_end off (p :: ps) = max_end off ps).
    { unfold max_end, loaded. cbn [filter]. now rewrite El. }
    assert (Hgo : forall cap1 r1, rd_same_env r r1 -> ph_fine (rd_data r) (rd_maxpos r) m off p ->
      (forall c, cap_after (rd_data r) (rd_maxpos r) cap1 ps c -> cap_after (rd_data r) (rd_maxpos r) cap (p :: ps) c) ->
      load_phdrs bld be off phdrs kend cap1 r1 m = (r', m', o) ->
      rd_same_env r r' /\ regions m' = regions m /\ untouched m m' (p :: ps) /\ phdrs_post (p :: ps) kend cap r m m' o).
    { intros cap1 r1 Henv Hfine Hcap E. apply IH in E as (H1 & H2 & H3 & H4); [|now apply (env_wf r)|exact Hwm].
      split; [exact (rd_same_env_trans _ _ _ Henv H1)|]. split; [exact H2|]. split.
      - intros x Hx. apply H3. intros q Hq. apply Hx. now right.
      - eapply phdrs_post_cons; [exact Henv|reflexivity|exact Hfine| |now rewrite Hmax|exact Hcap|exact H4].
        intros x. rewrite Hnil. reflexivity. }
    assert (Hn : (phdr_get "p_type" b =? PT_NOTE) = is_note p) by reflexivity.
    rewrite Hn in H. destruct (is_note p) eqn:En.
    2:{ rewrite lbind_ret in H. eapply Hgo; [apply rd_same_env_refl| | |exact H].
        - apply pf_other; assumption.
        - intros c. apply cap_after_cons. exact En. }
    destruct off as [k|] eqn:Eoff.
    { rewrite lbind_ret in H. eapply Hgo; [apply rd_same_env_refl| | |exact H].
      - eapply pf_note_ignored; eauto.
      - intros c. eapply cap_after_ignored; eauto. }
    unfold lbind in H. destruct (parse_elf_note bld b r m) as [[r1 m1] o1] eqn:Ep.
    apply parse_elf_note_spec in Ep; [|exact Hwr]. cbv zeta in Ep. fold (ph_of b) in Ep. fold p in Ep.
    destruct Ep as (-> & Henv & Hpost).
    destruct Hpost as [Hft|[(v & c & Hv & Hc & ->)|(e & He & ->)]].
    - assert (exists e, o1 = Err e /\ ph_trouble be r off p e) as (e & -> & Hpt).
      { destruct Hft as [(Ht & ->)|(Ht & ->)]; eexists; (split; [reflexivity|]); rewrite Eoff.
        - apply pt_note_read; auto.
        - apply pt_note_seek; auto. }
      inversion H; subst m' o r'. split; [exact Henv|]. split; [reflexivity|]. split; [intros x _; reflexivity|].
      right; right. exists [], p, ps, e. split; [reflexivity|]. split; [reflexivity|]. split; [constructor|].
      split; [exact Hpt|]. intros x _. reflexivity.
    - eapply Hgo; [exact Henv| | |exact H].
      + eapply pf_note; eauto.
      + intros c'. eapply cap_after_note; eauto.
    - inversion H; subst m' o r'. split; [exact Henv|]. split; [reflexivity|]. split; [intros x _; reflexivity|].
      right; left. exists [], p, ps, (LElf e). split; [reflexivity|]. split; [reflexivity|]. split; [constructor|].
      split; [apply pe_note; auto|]. intros x _. reflexivity. }
  (* loaded *)
  rewrite Hof, Hfz, Hpa, Hms in H. rewrite lbind_lio in H.
  assert (Hpos : 0 < ph_filesz p).
  { unfold is_load in El. apply andb_true_iff in El as [_ El]. apply negb_true_iff, N.eqb_neq in El. lia. }
  assert (Hstop : forall r1 m1 e, rd_same_env r r1 -> same_outside m m1 (in_range (base_of off + ph_paddr p) (ph_filesz p)) ->
    ph_error (rd_data r) (rd_maxpos r) m off p e \/ ph_trouble be r off p e -> (r1, m1, Err e) = (r', m', o) ->
    rd_same_env r r' /\ regions m' = regions m /\ untouched m m' (p :: ps) /\ phdrs_post (p :: ps) kend cap r m m' o).
  { intros r1 m1 e Henv [Hr1 Hb1] Hwhy E. inversion E; subst m' o r'.
    assert (Hd : forall x, ~ seg_dest off p x -> gm_byte m1 x = gm_byte m x).
    { intros x Hx. apply Hb1. intros Hin. apply Hx. split; assumption. }
    split; [exact Henv|]. split; [exact Hr1|]. split.
    - intros x Hx. apply Hd, Hx. now left.
    - destruct Hwhy as [Hpe|Ht].
      + right; left. exists [], p, ps, e. split; [reflexivity|]. split; [reflexivity|]. split; [constructor|].
        split; [assumption|]. intros x Hx. now apply Hd.
      + right; right. exists [], p, ps, e. split; [reflexivity|]. split; [reflexivity|]. split; [constructor|].
        split; [assumption|]. intros x Hx. now apply Hd. }
  destruct (seek_start_cases r (ph_offset p)) as [(r1 & E1 & Henv1 & Hwhy)|[E1 Hin1]]; rewrite E1 in H.
  { eapply Hstop; [exact Henv1|apply same_outside_refl| |exact H]. destruct Hwhy as [Hw|Hw].
    - left. now apply pe_seek.
    - right. now apply pt_seek. }
  set (r1 := rd_step r (ph_offset p)) in *.
  assert (Henv1 : rd_same_env r r1) by apply rd_same_env_step.
  assert (Haddr : match off with
                  | Some k => ok_or (checked_add k (ph_paddr p)) (LElf InvalidProgramHeaderAddress)
                  | None => Ok (ph_paddr p)
                  end = if base_of off + ph_paddr p <? two64 then Ok (base_of off + ph_paddr p)
                        else Err (LElf InvalidProgramHeaderAddress)).
  { destruct off as [k|]; cbn [base_of].
    - unfold checked_add. destruct (k + ph_paddr p <? two64); reflexivity.
    - rewrite N.add_0_l, (proj2 (N.ltb_lt _ _)) by apply paddr_lt. reflexivity. }
  rewrite Haddr in H. clear Haddr. destruct (N.ltb_spec (base_of off + ph_paddr p) two64) as [Hlt|Hge].
  2:{ rewrite lbind_err in H. eapply Hstop; [exact Henv1|apply same_outside_refl| |exact H].
      left. apply pe_addr; assumption. }
  rewrite lbind_ok in H. unfold lbind at 1 in H. unfold lcopy in H.
  destruct (read_exact_volatile_from be r1 m (base_of off + ph_paddr p) (ph_filesz p)) as [[r2 m2] o2] eqn:Ec.
  apply copy_cases in Ec; [|exact Hwm|exact Hpos]. destruct Ec as (Henv2 & Hfr2 & Hpost).
  change (rd_data r1) with (rd_data r) in Hpost. change (rd_pos r1) with (ph_offset p) in Hpost.
  pose proof (rd_same_env_trans _ _ _ Henv1 Henv2) as Henv.
  destruct Hpost as [(-> & Hin & Hrb & Hput)|(-> & Hwhy)].
  2:{ eapply Hstop; [exact Henv|exact Hfr2| |exact H]. destruct Hwhy as [Ht|Hw].
      - right. now apply pt_read.
      - left. apply pe_read; assumption. }
  unfold checked_add in H. destruct (N.ltb_spec (base_of off + ph_paddr p + ph_memsz p) two64) as [Hlt2|Hge2].
  2:{ cbn [ok_or] in H. rewrite lbind_err in H. eapply Hstop; [exact Henv|exact Hfr2| |exact H].
      left. apply pe_end; assumption. }
  cbn [ok_or] in H. rewrite lbind_ok in H.
  destruct Hfr2 as [Hr2 Hb2].
  apply IH in H as (H1 & H2 & H3 & H4); [|now apply (env_wf r)|now rewrite (wf_mem_regions m)].
  split; [exact (rd_same_env_trans _ _ _ Henv H1)|]. split; [congruence|]. split.
  - intros x Hx. rewrite H3; [|intros q Hq; apply Hx; now right]. apply Hb2. intros Hr.
    apply (Hx p); [now left|]. split; assumption.
  - eapply phdrs_post_cons; [exact Henv|exact Hr2| | | | |exact H4].
    + apply pf_load; assumption.
    + intros x. rewrite Hput. unfold segs_of, loaded. cbn [filter]. rewrite El. cbn [map]. unfold overlay. cbn [fold_left].
      unfold seg_of. cbn [fst snd]. now rewrite part_slice.
    + unfold max_end, loaded. cbn [filter]. rewrite El. cbn [map fold_right]. unfold end_of. lia.
    + intros c. apply cap_after_cons. unfold is_note. unfold is_load in El. apply andb_true_iff in El as [El _].
      apply N.eqb_eq in El. rewrite El. reflexivity.
Qed.
End Loop.

(** ** exactly one fate *)
Lemma note_scan_det f maxpos start fsz rs v1 :
  note_scan f maxpos start fsz rs v1 -> forall v2, note_scan f maxpos start fsz rs v2 -> v1 = v2.
Proof.
  induction 1; intros v2 H'; inversion H'; subst;
    repeat match goal with
    | Ha : u32at f (start + ?rs + 8) = 18 -> _, Hb : u32at f (start + ?rs + 8) = 18, Hc : u32at f (start + ?rs) = 4 |- _ =>
        destruct (Ha Hb Hc) as [? ?]; clear Ha
    end; try contradiction; try lia; try reflexivity; try congruence; auto.
  all: match goal with
       | IH : forall v, note_scan _ _ _ _ _ v -> _ = v, H : note_scan _ _ _ _ _ ?v |- _ = ?v => apply IH; exact H
       | _ => idtac
       end.
Qed.

Lemma note_result_det f maxpos p v1 v2 :
  note_result f maxpos p v1 -> note_result f maxpos p v2 -> v1 = v2.
Proof.
  intros [H1|v H1 H2] [H3|v' H3 H4]; try lia; [reflexivity|]. eapply note_scan_det; eassumption.
Qed.

Lemma fine_no_error f maxpos m off p e :
  lenN f <= maxpos -> ph_fine f maxpos m off p -> ~ ph_error f maxpos m off p e.
Proof.
  intros Hmp Hf He. destruct Hf as [H1 H2 H3 H4|v c H1 H2 H3 H4 H5|k H1 H2 H3|H1 H2];
    destruct He as [G1 G2|G1 G2 G3|G1 G2 G3 [G4|G4]|G1 G2 G3 G4 G5|e' G1 G2 G3 G4]; try congruence; try lia; try contradiction.
  assert (v = NoteBad e') by (eapply note_result_det; eassumption). subst. discriminate.
Qed.

Lemma error_det f maxpos m off p e1 e2 :
  lenN f <= maxpos -> ph_error f maxpos m off p e1 -> ph_error f maxpos m off p e2 -> e1 = e2.
Proof.
  intros Hmp He Hf. destruct He as [H1 H2|H1 H2 H3|H1 H2 H3 [H4|H4]|H1 H2 H3 H4 H5|e' H1 H2 H3 H4];
    destruct Hf as [G1 G2|G1 G2 G3|G1 G2 G3 [G4|G4]|G1 G2 G3 G4 G5|e'' G1 G2 G3 G4]; try congruence; try lia; try contradiction.
  assert (NoteBad e' = NoteBad e'') by (eapply note_result_det; eassumption). congruence.
Qed.

(** ** the ELF header *)
Lemma ehdr_ident f i : 64 <= lenN f -> i < 16 -> e_ident (slice f 0 64) i = byte_at f i.
Proof.
  intros H Hi. unfold e_ident. rewrite (get_slice _ _ i U8).
  - change (size U8) with 1. apply le_dec_slice1.
  - cbn [locate find_field Elf64_Ehdr]. rewrite String.eqb_refl. cbn [locate]. rewrite (proj2 (N.ltb_lt i 16)) by assumption.
    f_equal. f_equal. cbn [size]. change (place false 0 (Arr 16 U8)) with 0. lia.
  - change (size U8) with 1. lia.
  - lia.
Qed.
Lemma ehdr_field f name fo t' : 64 <= lenN f ->
  locate Elf64_Ehdr [Fld name] = Some (fo, t') -> fo + size t' <= 64 ->
  ehdr_get name (slice f 0 64) = le_dec (slice f fo (size t')).
Proof. intros H1 H2 H3. unfold ehdr_get. rewrite (get_slice _ _ fo t') by (assumption || lia). reflexivity. Qed.
Lemma ehdr_entry f : 64 <= lenN f -> ehdr_get "e_entry" (slice f 0 64) = entry_of f.
Proof. intros H. rewrite (ehdr_field f _ 24 U64) by (try reflexivity; cbn; lia). apply le_dec_slice8. Qed.
Lemma ehdr_phoff f : 64 <= lenN f -> ehdr_get "e_phoff" (slice f 0 64) = phoff_of f.
Proof. intros H. rewrite (ehdr_field f _ 32 U64) by (try reflexivity; cbn; lia). apply le_dec_slice8. Qed.
Lemma ehdr_phentsize f : 64 <= lenN f -> ehdr_get "e_phentsize" (slice f 0 64) = phentsize_of f.
Proof. intros H. rewrite (ehdr_field f _ 54 U16) by (try reflexivity; cbn; lia). apply le_dec_slice2. Qed.
Lemma ehdr_phnum f : 64 <= lenN f -> ehdr_get "e_phnum" (slice f 0 64) = phnum_of f.
Proof. intros H. rewrite (ehdr_field f _ 56 U16) by (try reflexivity; cbn; lia). apply le_dec_slice2. Qed.

Lemma validate_header_spec f : 64 <= lenN f ->
  (validate_header (slice f 0 64) = Ok tt /\ header_good f) \/
  (exists e, validate_header (slice f 0 64) = Err (LElf e) /\ header_problem f e).
Proof.
  intros H. unfold validate_header. rewrite !ehdr_ident, ehdr_phoff, ehdr_phentsize by (assumption || reflexivity).
  change (size Elf64_Phdr) with 56. change (size Elf64_Ehdr) with 64.
  unfold EI_MAG0, EI_MAG1, EI_MAG2, EI_MAG3, EI_DATA, ELFMAG0, ELFMAG1, ELFMAG2, ELFMAG3, ELFDATA2LSB.
  destruct (N.eqb_spec (byte_at f 0) 127) as [E0|E0]; cbn [negb orb];
    [|right; eexists; split; [reflexivity|apply hp_magic; [assumption|intros (? & ? & ? & ?); contradiction]]].
  destruct (N.eqb_spec (byte_at f 1) 69) as [E1|E1]; cbn [negb orb];
    [|right; eexists; split; [reflexivity|apply hp_magic; [assumption|intros (? & ? & ? & ?); contradiction]]].
  destruct (N.eqb_spec (byte_at f 2) 76) as [E2|E2]; cbn [negb orb];
    [|right; eexists; split; [reflexivity|apply hp_magic; [assumption|intros (? & ? & ? & ?); contradiction]]].
  destruct (N.eqb_spec (byte_at f 3) 70) as [E3|E3]; cbn [negb orb];
    [|right; eexists; split; [reflexivity|apply hp_magic; [assumption|intros (? & ? & ? & ?); contradiction]]].
  assert (Hm : elf_magic f) by (repeat split; assumption).
  destruct (N.eqb_spec (byte_at f 5) 1) as [E5|E5]; cbn [negb];
    [|right; eexists; split; [reflexivity|now apply hp_data]].
  destruct (N.eqb_spec (phentsize_of f) 56) as [Ep|Ep]; cbn [negb];
    [|right; eexists; split; [reflexivity|now apply hp_phent]].
  destruct (N.ltb_spec (phoff_of f) 64) as [Eo|Eo].
  - right; eexists; split; [reflexivity|now apply hp_phoff].
  - left. split; [reflexivity|]. unfold header_good. auto.
Qed.

Lemma header_problem_bad f e : header_problem f e -> ~ header_good f.
Proof. intros [H|H1 H2|H1 H2 H3|H1 H2 H3 H4|H1 H2 H3 H4 H5] (G1 & G2 & G3 & G4 & G5); try contradiction; lia. Qed.

Lemma start_problem_bad f maxpos off highmem e : start_problem f maxpos off highmem e -> ~ start_good f maxpos off highmem.
Proof.
  intros H (G1 & G2 & G3 & G4 & G5). destruct H as [e H|H1 H2|H1 H2 H3|H1 H2 H3 H4|H1 H2 H3 H4 H5]; try contradiction; try lia.
  eapply header_problem_bad; eassumption.
Qed.

Lemma start_problem_det f maxpos off highmem e1 e2 :
  start_problem f maxpos off highmem e1 -> start_problem f maxpos off highmem e2 -> e1 = e2.
Proof.
  assert (Hd : forall e1 e2, header_problem f e1 -> header_problem f e2 -> e1 = e2).
  { intros a b [H|H1 H2|H1 H2 H3|H1 H2 H3 H4|H1 H2 H3 H4 H5] [G|G1 G2|G1 G2 G3|G1 G2 G3 G4|G1 G2 G3 G4 G5]; try reflexivity; try contradiction; try lia. }
  intros [e H|H1 H2|H1 H2 H3|H1 H2 H3 H4|H1 H2 H3 H4 H5] [e' G|G1 G2|G1 G2 G3|G1 G2 G3 G4|G1 G2 G3 G4 G5];
    try reflexivity; try contradiction; try lia; auto; try (exfalso; eapply header_problem_bad; eassumption).
Qed.

(** ** the loader *)
Definition elf_post (be : backend) (off highmem : option N) (r : reader) (m m' : gmem) (o : outcome lerror load_result) : Prop :=
  let f := rd_data r in
  let mp := rd_maxpos r in
  (exists c, o = Ok (mkResult (base_of off + entry_of f) (max_end off (phdrs_of f)) None c) /\
     start_good f mp off highmem /\ Forall (ph_fine f mp m off) (phdrs_of f) /\
     mem_is_overlay m m' (segs_of f off (phdrs_of f)) /\ caps f mp off (phdrs_of f) c) \/
  (exists e, o = Err (LElf e) /\ start_problem f mp off highmem e /\ m' = m) \/
  (exists pre p post e, phdrs_of f = pre ++ p :: post /\ o = Err e /\ start_good f mp off highmem /\
     Forall (ph_fine f mp m off) pre /\ ph_error f mp m off p e /\
     (forall x, ~ seg_dest off p x -> gm_byte m' x = overlay (gm_byte m) (segs_of f off pre) x)) \/
  (exists e, o = Err (LElf e) /\ start_trouble r off highmem e /\ m' = m) \/
  (exists pre p post e, phdrs_of f = pre ++ p :: post /\ o = Err e /\ start_good f mp off highmem /\
     Forall (ph_fine f mp m off) pre /\ ph_trouble be r off p e /\
     (forall x, ~ seg_dest off p x -> gm_byte m' x = overlay (gm_byte m) (segs_of f off pre) x)).

Lemma start_trouble_io be r off highmem e : start_trouble r off highmem e -> io_trouble be r.
Proof. intros [H|H|? ? ? H|? ? ? ? H]; auto using seek_io, rfault_io. Qed.
Lemma ph_trouble_io be r off p e : ph_trouble be r off p e -> io_trouble be r.
Proof. intros [? H|? ? ? H|? ? ? H|? ? ? H]; auto using seek_io, rfault_io, rtrouble_io. Qed.

Lemma elf_load_spec bld be off highmem r m r' m' o :
  wf_reader r -> wf_mem m = true -> elf_load bld be off highmem r m = (r', m', o) ->
  rd_same_env r r' /\ regions m' = regions m /\ untouched off m m' (phdrs_of (rd_data r)) /\
  (~ start_good (rd_data r) (rd_maxpos r) off highmem -> m' = m) /\
  elf_post be off highmem r m m' o.
Proof.
  intros Hwr Hwm H. unfold elf_load in H. set (f := rd_data r) in *.
  assert (Hstop : forall r1 e, rd_same_env r r1 ->
    start_problem f (rd_maxpos r) off highmem e \/ start_trouble r off highmem e -> (r1, m, Err (LElf e)) = (r', m', o) ->
    rd_same_env r r' /\ regions m' = regions m /\ untouched off m m' (phdrs_of f) /\
    (~ start_good f (rd_maxpos r) off highmem -> m' = m) /\ elf_post be off highmem r m m' o).
  { intros r1 e He Hwhy E. inversion E; subst m' o r'. split; [exact He|]. split; [reflexivity|].
    split; [intros x _; reflexivity|]. split; [reflexivity|]. destruct Hwhy as [Hs|Ht].
    - right; left. eauto.
    - right; right; right; left. eauto. }
  rewrite lbind_lio in H.
  destruct (seek_start_cases r 0) as [(r1 & E1 & Henv1 & Hwhy)|[E1 _]]; rewrite E1 in H.
  { destruct Hwhy as [Hw|Hw]; [lia|]. eapply Hstop; [exact Henv1|right; now apply st_rewind|exact H]. }
  set (r1 := rd_step r 0) in *. assert (Henv1 : rd_same_env r r1) by apply rd_same_env_step.
  rewrite lbind_lio in H. change (size Elf64_Ehdr) with 64 in H.
  destruct (read_exact_cases r1 64) as [(r2 & E2 & Henv2 & Hwhy)|[E2 Hin2]]; rewrite E2 in H.
  { eapply Hstop; [exact (rd_same_env_trans _ _ _ Henv1 Henv2)| |exact H]. destruct Hwhy as [Hw|Hw].
    - left. apply sp_header, hp_short. change (lenN f < 0 + 64) in Hw. lia.
    - right. apply st_header. exact (env_rfault _ _ Henv1 Hw). }
  change (rd_data r1) with f in *. change (rd_pos r1) with 0 in *. rewrite N.add_0_l in *.
  set (r2 := rd_step r1 64) in *.
  assert (Henv2 : rd_same_env r r2) by (exact (rd_same_env_trans _ _ _ Henv1 (rd_same_env_step r1 64))).
  destruct (validate_header_spec f Hin2) as [[Ev Hgood]|(e & Ev & Hprob)]; rewrite Ev in H.
  2:{ rewrite lbind_err in H. eapply Hstop; [exact Henv2|left; apply sp_header; exact Hprob|exact H]. }
  rewrite lbind_ok in H. rewrite ehdr_entry, ehdr_phoff, ehdr_phnum in H by assumption.
  assert (Hhm : (match highmem with
                 | Some addr => if entry_of f <? addr then lfail (LElf InvalidEntryAddress) else lret tt
                 | None => lret tt
                 end = lret tt /\ highmem_ok f highmem) \/
                (match highmem with
                 | Some addr => if entry_of f <? addr then lfail (LElf InvalidEntryAddress) else lret tt
                 | None => lret tt
                 end = lfail (LElf InvalidEntryAddress) /\ ~ highmem_ok f highmem)).
  { destruct highmem as [h|]; [|left; split; [reflexivity|exact I]]. cbn.
    destruct (N.ltb_spec (entry_of f) h); [right|left]; (split; [reflexivity|lia]). }
  destruct Hhm as [[Eh Hhm]|[Eh Hhm]]; rewrite Eh in H.
  2:{ eapply Hstop; [exact Henv2|left; apply sp_entry; assumption|exact H]. }
  rewrite lbind_ret in H.
  assert (Hent : match off with
                 | Some k => ok_or (checked_add k (entry_of f)) (LElf ElfOverflow)
                 | None => Ok (entry_of f)
                 end = if base_of off + entry_of f <? two64 then Ok (base_of off + entry_of f)
                       else Err (LElf ElfOverflow)).
  { destruct off as [k|]; cbn [base_of].
    - unfold checked_add. destruct (k + entry_of f <? two64); reflexivity.
    - rewrite N.add_0_l, (proj2 (N.ltb_lt _ _)) by apply u64at_lt. reflexivity. }
  rewrite Hent in H. clear Hent. destruct (N.ltb_spec (base_of off + entry_of f) two64) as [Hlt|Hge].
  2:{ rewrite lbind_err in H. eapply Hstop; [exact Henv2|left; apply sp_overflow; assumption|exact H]. }
  rewrite lbind_ok, lbind_lio in H.
  destruct (seek_start_cases r2 (phoff_of f)) as [(r3 & E3 & Henv3 & Hwhy)|[E3 Hin3]]; rewrite E3 in H.
  { eapply Hstop; [exact (rd_same_env_trans _ _ _ Henv2 Henv3)| |exact H]. destruct Hwhy as [Hw|Hw].
    - left. apply sp_seek; assumption.
    - right. now apply st_seek. }
  change (rd_maxpos r2) with (rd_maxpos r) in Hin3.
  set (r3 := rd_step r2 (phoff_of f)) in *.
  assert (Henv3 : rd_same_env r r3) by (exact (rd_same_env_trans _ _ _ Henv2 (rd_same_env_step _ _))).
  unfold lbind at 1 in H.
  destruct (read_phdrs (N.to_nat (phnum_of f)) r3 m) as [[r4 m4] o4] eqn:Ep.
  apply read_phdrs_spec in Ep as (-> & Henv4 & Hpost). change (rd_data r3) with f in Hpost. change (rd_pos r3) with (phoff_of f) in Hpost.
  rewrite N2Nat.id in Hpost. pose proof (rd_same_env_trans _ _ _ Henv3 Henv4) as Henv4'.
  destruct Hpost as [(-> & Htab)|(-> & Hwhy)].
  2:{ eapply Hstop; [exact Henv4'| |exact H]. destruct Hwhy as [Hw|[H0 Hw]].
      - right. now apply st_table.
      - left. apply sp_table; try assumption. intros [Hz|Hi]; lia. }
  assert (Htable : table_inside f) by (unfold table_inside; lia).
  assert (Hphs : map ph_of (map (fun i => slice f (phoff_of f + 56 * N.of_nat i) 56) (seq 0 (N.to_nat (phnum_of f)))) = phdrs_of f).
  { rewrite map_map. apply map_ext_in. intros i Hi. apply in_seq in Hi. unfold ph_at. apply ph_of_slice.
    destruct Htable as [Hz|Hz]; lia. }
  assert (Hsg : start_good f (rd_maxpos r) off highmem) by (unfold start_good; auto).
  unfold lbind in H.
  destruct (load_phdrs _ _ _ _ _ _ _ _) as [[r5 m5] o5] eqn:El.
  apply load_phdrs_spec in El as (Henv5 & Hreg & Hun & Hpost); [|now apply (env_wf r)|exact Hwm].
  rewrite Hphs in *. pose proof (rd_same_env_trans _ _ _ Henv4' Henv5) as Henv5'.
  assert (Hr' : r' = r5 /\ m' = m5 /\ o = match o5 with Ok res => Ok (mkResult (base_of off + entry_of f) (fst res) None (snd res)) | Err e => Err e | Panic p => Panic p end).
  { destruct o5; unfold lret in H; inversion H; auto. }
  destruct Hr' as (-> & -> & ->).
  split; [exact Henv5'|]. split; [exact Hreg|]. split; [exact Hun|]. split; [contradiction|].
  unfold phdrs_post in Hpost. pose proof Henv4' as (Ed & Em & Ec & Efa). rewrite Ed, Em in Hpost. fold f in Hpost.
  destruct Hpost as [(c & -> & Hf & Ho & Hc)|[(pre & p & post & e & Hps & -> & Hf & He & Ho)|(pre & p & post & e & Hps & -> & Hf & He & Ho)]].
  - left. exists c. cbn [fst snd]. split; [rewrite N.max_0_l; reflexivity|]. split; [exact Hsg|]. split; [exact Hf|]. split; [exact Ho|].
    now apply cap_after_caps.
  - right; right; left. exists pre, p, post, e. split; [exact Hps|]. split; [reflexivity|]. auto.
  - right; right; right; right. exists pre, p, post, e. split; [exact Hps|]. split; [reflexivity|]. split; [exact Hsg|]. split; [exact Hf|].
    split; [exact (ph_trouble_env _ _ _ _ _ _ Henv4' He)|exact Ho].
Qed.
