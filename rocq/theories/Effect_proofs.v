(** Lemmas about the effects of calls with a working source. *)
From Verif Require Import Base Base_proofs Io Mem SpecMem Mem_proofs Layout SpecFile File_proofs Text Cmdline Loader Elf SpecElf
  Elf_proofs Elf_proofs2 BzImage SpecBz Bz_proofs Pe SpecPe Pe_proofs BootParams Configurators SpecVmm Vmm_proofs Sim_proofs Props_Bz Props_Config Props_Vmm Trace_proofs SpecEffect.
Open Scope loader_scope.

Lemma read_loop_pours be fuel : forall r m cur left total r' m' o,
  wf_mem m = true -> (read_measure be r m cur < fuel)%nat -> never_faults r -> reads_enough be r ->
  read_loop be fuel r m cur left total = (r', m', o) ->
  exists k, k <= N.min left (rd_len r - rd_pos r) /\ range_backed m cur k /\
    (k < N.min left (rd_len r - rd_pos r) -> ~ backed m (cur + k)) /\ regions m' = regions m /\
    forall x, gm_byte m' x = put (gm_byte m) cur (slice (rd_data r) (rd_pos r) k) x.
Proof.
  induction fuel as [|fuel IH]; intros r m cur left total r' m' o Hw Hf Hnf Hen H; [lia|].
  cbn [read_loop] in H.
  assert (Z : forall m1 : gmem, m1 = m -> (0 < N.min left (rd_len r - rd_pos r) -> ~ backed m cur) -> exists k, k <= N.min left (rd_len r - rd_pos r) /\ range_backed m cur k /\
    (k < N.min left (rd_len r - rd_pos r) -> ~ backed m (cur + k)) /\ regions m1 = regions m /\
    forall x, gm_byte m1 x = put (gm_byte m) cur (slice (rd_data r) (rd_pos r) k) x).
  { intros m1 -> Hz. exists 0. split; [lia|]. split; [intros x ? ?; lia|]. split; [now rewrite N.add_0_r|]. split; [reflexivity|].
    intros x. now rewrite slice_zero, put_nil. }
  destruct (find_region m cur) as [rg|] eqn:Ef.
  2:{ injection H as <- <- <-. apply Z; [reflexivity|]. intros _. now apply find_region_none. }
  apply find_region_some in Ef as (Hin & Hr1 & Hr2).
  destruct (wf_region m rg Hw Hin) as [Hlen Hend].
  set (n := N.min (r_base rg + r_len rg - cur) left) in *.
  destruct (read_volatile r n) as [r1 [bs|]] eqn:Er.
  2:{ unfold read_volatile in Er. rewrite Hnf in Er. discriminate. }
  apply read_volatile_some in Er as (Hk & Hdata & Hpos & Hm & Hch & Hfa & _ & Hbs & Hkeq).
  set (adv := match be with TryAccess => lenN bs | GetSlices => n end) in *.
  assert (Hadv : adv = lenN bs \/ (adv = n /\ lenN bs = rd_len r - rd_pos r /\ lenN bs < n)).
  { unfold adv. destruct be; [now left|]. cbn in Hen. specialize (Hen (rd_ops r)). lia. }
  assert (Hrb : range_backed m cur n).
  { intros x Hx1 Hx2. exists rg. split; [exact Hin|]. lia. }
  assert (Q : forall m1, m1 = mem_store m cur bs -> lenN bs = N.min left (rd_len r - rd_pos r) ->
    exists k, k <= N.min left (rd_len r - rd_pos r) /\ range_backed m cur k /\
    (k < N.min left (rd_len r - rd_pos r) -> ~ backed m (cur + k)) /\ regions m1 = regions m /\
    forall x, gm_byte m1 x = put (gm_byte m) cur (slice (rd_data r) (rd_pos r) k) x).
  { intros m1 -> E. exists (lenN bs). split; [lia|]. split; [intros x ? ?; apply Hrb; lia|]. split; [lia|]. split; [reflexivity|].
    intros x. cbn. rewrite store_put, <- Hbs. reflexivity. }
  destruct (N.eqb_spec adv 0) as [E0|E0].
  { injection H as <- <- <-. apply Q; [reflexivity|]. lia. }
  destruct (N.eqb_spec adv left) as [E1|E1].
  { injection H as <- <- <-. apply Q; [reflexivity|]. lia. }
  unfold next_addr in H. replace (cur + adv <? two64) with true in H by lia.
  apply IH in H.
  - destruct H as (k & K1 & K2 & K3 & K4 & K5). unfold rd_len in *. rewrite Hdata, Hpos in *. cbn [mem_store regions] in K4.
    destruct Hadv as [Ea|(Ea & Eb & Ec)].
    + exists (lenN bs + k). split; [lia|]. split; [|split; [|split; [exact K4|]]].
      * intros x Hx1 Hx2. destruct (N.ltb_spec x (cur + lenN bs)); [apply Hrb; lia|].
        apply (proj1 (backed_regions m (mem_store m cur bs) x eq_refl)). apply K2; lia.
      * intros Hlt Hb. apply K3; [lia|]. apply (proj2 (backed_regions m (mem_store m cur bs) _ eq_refl)).
        replace (cur + adv + k) with (cur + (lenN bs + k)) by lia. exact Hb.
      * intros x. rewrite K5, Ea. rewrite (put_ext _ (put (gm_byte m) cur bs)); [|intros y; cbn; apply store_put].
        rewrite put_app. f_equal. rewrite (slice_split_any (rd_data r) (rd_pos r) (lenN bs) k). now rewrite <- Hbs.
    + assert (k = 0) as -> by lia. exists (lenN bs). split; [lia|]. split; [intros x ? ?; apply Hrb; lia|]. split; [lia|]. split; [exact K4|].
      intros x. rewrite K5, slice_zero, put_nil. cbn. rewrite store_put, <- Hbs. reflexivity.
  - exact Hw.
  - unfold read_measure in *. destruct be.
    + unfold rd_len in *. rewrite Hdata, Hpos. lia.
    + cbn [mem_store regions]. pose proof (regions_after_dec (regions m) cur rg Hin Hr2).
      replace (cur + adv) with (r_base rg + r_len rg) by lia. lia.
  - intros k i. rewrite Hfa. apply Hnf.
  - destruct be; [exact I|]. cbn in *. intros i. unfold full_reads, rd_len in *. rewrite Hdata, Hch. apply Hen.
Qed.

Lemma poured_refl m a : poured m a [] m.
Proof.
  exists 0. split; [lia|]. split; [intros x ? ?; lia|]. split; [change (lenN (@nil byte)) with 0; lia|]. split; [reflexivity|].
  intros x. rewrite part_slice, slice_zero. now rewrite put_nil.
Qed.

Lemma part_of_slice (f : bytes) o n k : k <= n -> part (slice f o n) 0 k = slice f o k.
Proof.
  intros H. rewrite <- (part_slice f o n), <- (part_slice f o k). unfold part. change (N.to_nat 0) with O. cbn [skipn].
  rewrite firstn_firstn. f_equal. lia.
Qed.

Lemma copy_pours be r m a n e r' m' o : wf_mem m = true -> never_faults r -> reads_enough be r ->
  lcopy be a n e r m = (r', m', o) -> poured m a (part (rd_data r) (rd_pos r) n) m' /\ (o = Ok tt \/ o = Err e).
Proof.
  intros Hw Hnf Hen H. unfold lcopy in H.
  destruct (read_exact_volatile_from be r m a n) as [[r1 m1] o1] eqn:E.
  pose proof (rev_frame _ _ _ _ _ _ _ _ Hw E) as (_ & _ & Ho).
  assert (m1 = m' /\ (o = Ok tt \/ o = Err e)) as (-> & Hoo).
  { destruct Ho as [-> | ->]; inversion H; subst; auto. }
  split; [|exact Hoo]. rewrite part_slice.
  assert (Z : (be = GetSlices /\ n = 0 /\ m' = m) \/ (be = GetSlices -> n <> 0)).
  { destruct be; [right; discriminate|]. destruct (N.eq_dec n 0) as [->|Hn]; [|now right].
    left. cbn in E. injection E as _ <- _. auto. }
  destruct Z as [(_ & -> & ->)|Hz]; [rewrite slice_zero; apply poured_refl|].
  rewrite rev_unfold in E by exact Hz.
  destruct (read_loop _ _ _ _ _ _ _) as [[r2 m2] o2] eqn:El.
  assert (m2 = m') as -> by (destruct o2; injection E as _ <- _; reflexivity).
  apply read_loop_pours in El as (k & K1 & K2 & K3 & K4 & K5); [|exact Hw|apply read_measure_fuel|exact Hnf|exact Hen].
  exists k. rewrite lenN_slice. unfold rd_len in *. split; [exact K1|]. split; [exact K2|]. split; [exact K3|]. split; [exact K4|].
  intros x. rewrite part_of_slice by lia. apply K5.
Qed.

(** ** Writing a slice *)
Lemma write_loop_pours fuel : forall m cur data total m' o,
  wf_mem m = true -> (length data < fuel)%nat ->
  write_loop fuel m cur data total = (m', o) -> poured m cur data m'.
Proof.
  induction fuel as [|fuel IH]; intros m cur data total m' o Hw Hf H; [lia|]. cbn [write_loop] in H.
  destruct (find_region m cur) as [rg|] eqn:Ef.
  2:{ injection H as <- _. apply find_region_none in Ef. exists 0. split; [lia|]. split; [intros x ? ?; lia|].
      split; [now rewrite N.add_0_r|]. split; [reflexivity|]. intros x. now rewrite part_slice, slice_zero, put_nil. }
  apply find_region_some in Ef as (Hin & Hr1 & Hr2).
  destruct (wf_region m rg Hw Hin) as [Hlen Hend].
  set (n := N.min (r_base rg + r_len rg - cur) (lenN data)) in *.
  assert (Hrb : range_backed m cur n).
  { intros x Hx1 Hx2. exists rg. split; [exact Hin|]. lia. }
  destruct (N.eqb_spec n 0) as [E0|E0].
  { injection H as <- _. assert (data = []) as ->. { destruct data as [|b l]; [reflexivity|]. pose proof (lenN_cons b l). lia. }
    cbn. destruct m. exists 0. split; [lia|]. split; [intros x ? ?; lia|]. split; [change (lenN (@nil byte)) with 0; lia|]. split; [reflexivity|].
    intros x. rewrite part_slice, slice_zero, put_nil. cbn. rewrite store_put. rewrite slice_past by (change (lenN (@nil byte)) with 0; lia). apply put_nil. }
  destruct (N.eqb_spec n (lenN data)) as [E1|E1].
  { injection H as <- _. exists (lenN data). split; [lia|]. split; [now rewrite <- E1|]. split; [lia|]. split; [reflexivity|].
    intros x. cbn. rewrite store_put, E1, part_slice. reflexivity. }
  unfold next_addr in H. replace (cur + n <? two64) with true in H by lia.
  apply IH in H; [|exact Hw|].
  - destruct H as (k & K1 & K2 & K3 & K4 & K5). rewrite lenN_slice in *. exists (n + k). split; [lia|].
    split; [|split; [|split; [exact K4|]]].
    + intros x Hx1 Hx2. destruct (N.ltb_spec x (cur + n)); [apply Hrb; lia|].
      apply (proj1 (backed_regions m (mem_store m cur (slice data 0 n)) x eq_refl)). apply K2; lia.
    + intros Hlt Hb. apply K3; [lia|]. apply (proj2 (backed_regions m (mem_store m cur (slice data 0 n)) _ eq_refl)).
      replace (cur + n + k) with (cur + (n + k)) by lia. exact Hb.
    + intros x. rewrite K5. rewrite (put_ext _ (put (gm_byte m) cur (slice data 0 n))); [|intros y; cbn; apply store_put].
      assert (Ln : lenN (slice data 0 n) = n) by (rewrite lenN_slice; lia).
      replace (cur + n) with (cur + lenN (slice data 0 n)) by now rewrite Ln. rewrite put_app. f_equal. rewrite part_of_slice by lia. rewrite part_slice, slice_split_any. reflexivity.
  - pose proof (lenN_slice data n (lenN data - n)) as L. unfold lenN in *. lia.
Qed.

Lemma write_pours be m data a m' o : wf_mem m = true -> write_slice be m data a = (m', o) ->
  poured m a data m' /\ (o = Ok tt \/ o = Err tt).
Proof.
  intros Hw H. pose proof (write_slice_frame _ _ _ _ _ _ Hw H) as (_ & Ho). split; [|exact Ho].
  assert (Z : (be = GetSlices /\ data = [] /\ m' = m) \/ exists o1, write_loop (S (length data)) m a data 0 = (m', o1)).
  { unfold write_slice in H. destruct be, data; try (right; destruct (write_loop _ _ _ _ _) as [m1 [x|x|x]]; injection H as <- _; eauto; fail).
    left. injection H as <- _. auto. }
  destruct Z as [(_ & -> & ->)|(o1 & E)]; [apply poured_refl|].
  eapply write_loop_pours; [exact Hw| |exact E]. lia.
Qed.

Lemma poured_regions m a bs m' : poured m a bs m' -> regions m' = regions m.
Proof. now intros (k & _ & _ & _ & H & _). Qed.
Lemma segs_cons f off p l : segs_of f off (p :: l) = if is_load p then seg_of f off p :: segs_of f off l else segs_of f off l.
Proof. unfold segs_of, loaded. cbn [filter]. destruct (is_load p); reflexivity. Qed.
Lemma segs_app f off l1 l2 : segs_of f off (l1 ++ l2) = segs_of f off l1 ++ segs_of f off l2.
Proof. unfold segs_of, loaded. now rewrite filter_app, map_app. Qed.

(** ** ELF *)
Section Loop.
Context (bld : build) (be : backend) (off : option N).

Definition phdrs_effect (ps : list ph) (r : reader) (m m' : gmem) (o : outcome lerror (N * pvh_cap)) : Prop :=
  (exists v, o = Ok v /\ Forall (ph_fine (rd_data r) (rd_maxpos r) m off) ps /\ poured_all m (segs_of (rd_data r) off ps) m') \/
  (exists pre p post e, ps = pre ++ p :: post /\ o = Err e /\ Forall (ph_fine (rd_data r) (rd_maxpos r) m off) pre /\
     ph_error (rd_data r) (rd_maxpos r) m off p e /\
     poured_all m (segs_of (rd_data r) off (if copying_error e then pre ++ [p] else pre)) m').

Lemma phdrs_effect_cons p ps r r1 m m1 m' o :
  rd_same_env r r1 -> regions m1 = regions m -> ph_fine (rd_data r) (rd_maxpos r) m off p ->
  (forall l, poured_all m1 (segs_of (rd_data r) off l) m' -> poured_all m (segs_of (rd_data r) off (p :: l)) m') ->
  phdrs_effect ps r1 m1 m' o -> phdrs_effect (p :: ps) r m m' o.
Proof.
  intros (Ed & Em & _) Hreg Hfine Hp. unfold phdrs_effect. rewrite Ed, Em.
  intros [(v & -> & Hf & Ho)|(pre & q & post & e & -> & -> & Hf & He & Ho)].
  - left. exists v. split; [reflexivity|]. split; [|now apply Hp].
    constructor; [exact Hfine|]. eapply Forall_impl; [|exact Hf]. intros q. now apply ph_fine_regions.
  - right. exists (p :: pre), q, post, e. split; [reflexivity|]. split; [reflexivity|]. split; [|split].
    + constructor; [exact Hfine|]. eapply Forall_impl; [|exact Hf]. intros q'. now apply ph_fine_regions.
    + eapply ph_error_regions; eassumption.
    + apply Hp in Ho. destruct (copying_error e); exact Ho.
Qed.

Lemma load_phdrs_pours phdrs : forall kend cap r m r' m' o,
  wf_reader r -> wf_mem m = true -> never_faults r -> reads_enough be r ->
  load_phdrs bld be off phdrs kend cap r m = (r', m', o) ->
  phdrs_effect (map ph_of phdrs) r m m' o.
Proof.
  induction phdrs as [|b phdrs IH]; intros kend cap r m r' m' o Hwr Hwm Hnf Hen H; cbn [load_phdrs map] in H |- *.
  { inversion H; subst. left. exists (kend, cap). split; [reflexivity|]. split; [constructor|]. apply mem_same_refl. }
  set (p := ph_of b) in *. set (ps := map ph_of phdrs) in *.
  assert (Hquiet : ~ io_trouble be r) by now apply no_trouble_iff.
  assert (Hof : phdr_get "p_offset" b = ph_offset p) by reflexivity.
  assert (Hfz : phdr_get "p_filesz" b = ph_filesz p) by reflexivity.
  assert (Hpa : phdr_get "p_paddr" b = ph_paddr p) by reflexivity.
  assert (Hms : phdr_get "p_memsz" b = ph_memsz p) by reflexivity.
  assert (Hload : negb (phdr_get "p_type" b =? PT_LOAD) || (phdr_get "p_filesz" b =? 0) = negb (is_load p)).
  { unfold is_load. rewrite negb_andb, negb_involutive. reflexivity. }
  assert (Hnext : forall r1 m1 kend1 cap1 , rd_same_env r r1 -> regions m1 = regions m -> ph_fine (rd_data r) (rd_maxpos r) m off p ->
    (forall l, poured_all m1 (segs_of (rd_data r) off l) m' -> poured_all m (segs_of (rd_data r) off (p :: l)) m') ->
    load_phdrs bld be off phdrs kend1 cap1 r1 m1 = (r', m', o) -> phdrs_effect (p :: ps) r m m' o).
  { intros r1 m1 kend1 cap1 Henv Hreg Hfine Hp E. eapply phdrs_effect_cons; [exact Henv|exact Hreg|exact Hfine|exact Hp|].
    apply (proj1 (no_trouble_iff be r)) in Hquiet as [N1 N2].
    assert (Hq1 : ~ io_trouble be r1).
    { intros T. apply (proj2 (no_trouble_iff be r) (conj N1 N2)). exact (env_trouble _ _ _ Henv T). }
    apply no_trouble_iff in Hq1 as [N3 N4].
    eapply IH; [now apply (env_wf r)|now rewrite (wf_mem_regions m)|exact N3|exact N4|exact E]. }
  assert (Hstop : forall r1 m1 e, ph_error (rd_data r) (rd_maxpos r) m off p e ->
    poured_all m (segs_of (rd_data r) off (if copying_error e then [p] else [])) m1 -> (r1, m1, Err e) = (r', m', o) ->
    phdrs_effect (p :: ps) r m m' o).
  { intros r1 m1 e He Hp E. inversion E; subst m' o r'. right. exists [], p, ps, e. split; [reflexivity|]. split; [reflexivity|]. split; [constructor|].
    split; [exact He|exact Hp]. }
  rewrite Hload in H. destruct (is_load p) eqn:El; cbn [negb] in H.
  2:{ assert (Hskip : forall l, poured_all m (segs_of (rd_data r) off l) m' -> poured_all m (segs_of (rd_data r) off (p :: l)) m').
    { intros l. rewrite segs_cons, El. auto. }
    assert (Hn : (phdr_get "p_type" b =? PT_NOTE) = is_note p) by reflexivity.
    rewrite Hn in H. destruct (is_note p) eqn:En.
    2:{ rewrite lbind_ret in H. eapply Hnext; [apply rd_same_env_refl|reflexivity| |exact Hskip|exact H]. now apply pf_other. }
    destruct off as [k|] eqn:Eoff.
    { rewrite lbind_ret in H. eapply Hnext; [apply rd_same_env_refl|reflexivity| |exact Hskip|exact H]. eapply pf_note_ignored; eauto. }
    unfold lbind in H. destruct (parse_elf_note bld b r m) as [[r1 m1] o1] eqn:Ep.
    apply parse_elf_note_spec in Ep; [|exact Hwr]. cbv zeta in Ep. fold (ph_of b) in Ep. fold p in Ep.
    destruct Ep as (-> & Henv & Hpost).
    destruct Hpost as [Hft|[(v & c & Hv & Hc & ->)|(e & He & ->)]].
    - exfalso. apply Hquiet. destruct Hft as [(Ht & _)|(Ht & _)]; auto using seek_io, rfault_io.
    - eapply Hnext; [exact Henv|reflexivity| |exact Hskip|exact H]. eapply pf_note; eauto.
    - eapply Hstop; [| |exact H]; [now apply pe_note|].
      assert (copying_error (LElf e) = false) as ->; [|apply mem_same_refl].
      clear - He. inversion He; subst; [reflexivity|]. match goal with X : note_scan _ _ _ _ _ ?v |- _ => remember v as w eqn:Ew; induction X; inversion Ew; subst; try reflexivity; auto end. }
  rewrite Hof, Hfz, Hpa, Hms in H. rewrite lbind_lio in H.
  assert (Hpos : 0 < ph_filesz p).
  { unfold is_load in El. apply andb_true_iff in El as [_ El]. apply negb_true_iff, N.eqb_neq in El. lia. }
  destruct (seek_start_cases r (ph_offset p)) as [(r1 & E1 & Henv1 & Hwhy)|[E1 Hin1]]; rewrite E1 in H.
  { destruct Hwhy as [Hw|Hw].
    - eapply Hstop; [| |exact H]; [now apply pe_seek|apply mem_same_refl].
    - exfalso. apply Hquiet. auto using seek_io. }
  set (r1 := rd_step r (ph_offset p)) in *.
  assert (Henv1 : rd_same_env r r1) by apply rd_same_env_step.
  assert (Haddr : match off with
                  | Some k => ok_or (checked_add k (ph_paddr p)) (LElf InvalidProgramHeaderAddress)
                  | None => Ok (ph_paddr p)
                  end = if base_of off + ph_paddr p <? two64 then Ok (base_of off + ph_paddr p)
                        else Err (LElf InvalidProgramHeaderAddress)).
  { destruct off as [k|]; cbn [base_of].
    - unfold checked_add. destruct (k + ph_paddr p <? two64); reflexivity.
    - rewrite N.add_0_l, (proj2 (N.ltb_lt _ _)) by apply paddr_lt. reflexivity. }
  rewrite Haddr in H. clear Haddr. destruct (N.ltb_spec (base_of off + ph_paddr p) two64) as [Hlt|Hge].
  2:{ rewrite lbind_err in H. eapply Hstop; [| |exact H]; [now apply pe_addr|apply mem_same_refl]. }
  rewrite lbind_ok in H. unfold lbind at 1 in H.
  destruct (lcopy be (base_of off + ph_paddr p) (ph_filesz p) (LElf ReadKernelImage) r1 m) as [[r2 m2] o2] eqn:Ec.
  assert (Hpour : poured m (base_of off + ph_paddr p) (part (rd_data r) (ph_offset p) (ph_filesz p)) m2).
  { apply copy_pours in Ec as [Hp _]; [exact Hp|exact Hwm|intros k i; apply Hnf|].
    destruct be; [exact I|]. exact Hen. }
  assert (Hlast : forall m1, m1 = m2 -> poured_all m (segs_of (rd_data r) off [p]) m1).
  { intros m1 ->. rewrite segs_cons, El. exists m2. split; [exact Hpour|apply mem_same_refl]. }
  unfold lcopy in Ec.
  destruct (read_exact_volatile_from be r1 m (base_of off + ph_paddr p) (ph_filesz p)) as [[r3 m3] o3] eqn:Ec3.
  apply copy_cases in Ec3; [|exact Hwm|exact Hpos]. destruct Ec3 as (Henv2 & Hfr2 & Hpost).
  change (rd_data r1) with (rd_data r) in Hpost. change (rd_pos r1) with (ph_offset p) in Hpost.
  pose proof (rd_same_env_trans _ _ _ Henv1 Henv2) as Henv.
  destruct Hpost as [(-> & Hin & Hrb & Hput)|(-> & Hwhy)].
  2:{ injection Ec as <- <- <-. destruct Hwhy as [Ht|Hw].
      - exfalso. apply Hquiet. apply rtrouble_io. exact (env_rtrouble _ _ _ Henv1 Ht).
      - eapply Hstop; [| |exact H]; [now apply pe_read|now apply Hlast]. }
  injection Ec as <- <- <-.
  unfold checked_add in H. destruct (N.ltb_spec (base_of off + ph_paddr p + ph_memsz p) two64) as [Hlt2|Hge2].
  2:{ cbn [ok_or] in H. rewrite lbind_err in H. eapply Hstop; [| |exact H]; [now apply pe_end|now apply Hlast]. }
  cbn [ok_or] in H. rewrite lbind_ok in H. destruct Hfr2 as [Hr2 Hb2].
  eapply Hnext; [exact Henv|exact Hr2| | |exact H].
  - apply pf_load; assumption.
  - intros l Hl. rewrite segs_cons, El. exists m3. split; [exact Hpour|exact Hl].
Qed.
End Loop.

Lemma elf_load_pours bld be off highmem r m r' m' o :
  wf_reader r -> wf_mem m = true -> never_faults r -> reads_enough be r -> elf_load bld be off highmem r m = (r', m', o) ->
  exists ws, elf_tried (rd_data r) (rd_maxpos r) off highmem m ws /\ poured_all m ws m'.
Proof.
  intros Hwr Hwm Hnf Hen H. unfold elf_load in H. set (f := rd_data r) in *.
  assert (Hstop : forall r1 e, rd_same_env r r1 ->
    start_problem f (rd_maxpos r) off highmem e \/ start_trouble r off highmem e -> (r1, m, Err (LElf e)) = (r', m', o) ->
    exists ws, elf_tried f (rd_maxpos r) off highmem m ws /\ poured_all m ws m').
  { intros r1 e He Hwhy E. inversion E; subst m' o r'. destruct Hwhy as [Hs|Ht].
    - exists []. split; [now apply et_start with e|apply mem_same_refl].
    - exfalso. apply (proj2 (no_trouble_iff be r) (conj Hnf Hen)). exact (start_trouble_io _ _ _ _ _ Ht). }
  rewrite lbind_lio in H.
  destruct (seek_start_cases r 0) as [(r1 & E1 & Henv1 & Hwhy)|[E1 _]]; rewrite E1 in H.
  { destruct Hwhy as [Hw|Hw]; [lia|]. eapply Hstop; [exact Henv1|right; now apply st_rewind|exact H]. }
  set (r1 := rd_step r 0) in *. assert (Henv1 : rd_same_env r r1) by apply rd_same_env_step.
  rewrite lbind_lio in H. change (size Elf64_Ehdr) with 64 in H.
  destruct (read_exact_cases r1 64) as [(r2 & E2 & Henv2 & Hwhy)|[E2 Hin2]]; rewrite E2 in H.
  { eapply Hstop; [exact (rd_same_env_trans _ _ _ Henv1 Henv2)| |exact H]. destruct Hwhy as [Hw|Hw].
    - left. apply sp_header, hp_short. change (lenN f < 0 + 64) in Hw. lia.
    - right. apply st_header. exact (env_rfault _ _ Henv1 Hw). }
  change (rd_data r1) with f in *. change (rd_pos r1) with 0 in *. rewrite N.add_0_l in *.
  set (r2 := rd_step r1 64) in *.
  assert (Henv2 : rd_same_env r r2) by (exact (rd_same_env_trans _ _ _ Henv1 (rd_same_env_step r1 64))).
  destruct (validate_header_spec f Hin2) as [[Ev Hgood]|(e & Ev & Hprob)]; rewrite Ev in H.
  2:{ rewrite lbind_err in H. eapply Hstop; [exact Henv2|left; apply sp_header; exact Hprob|exact H]. }
  rewrite lbind_ok in H. rewrite ehdr_entry, ehdr_phoff, ehdr_phnum in H by assumption.
  assert (Hhm : (match highmem with
                 | Some addr => if entry_of f <? addr then lfail (LElf InvalidEntryAddress) else lret tt
                 | None => lret tt
                 end = lret tt /\ highmem_ok f highmem) \/
                (match highmem with
                 | Some addr => if entry_of f <? addr then lfail (LElf InvalidEntryAddress) else lret tt
                 | None => lret tt
                 end = lfail (LElf InvalidEntryAddress) /\ ~ highmem_ok f highmem)).
  { destruct highmem as [h|]; [|left; split; [reflexivity|exact I]]. cbn.
    destruct (N.ltb_spec (entry_of f) h); [right|left]; (split; [reflexivity|lia]). }
  destruct Hhm as [[Eh Hhm]|[Eh Hhm]]; rewrite Eh in H.
  2:{ eapply Hstop; [exact Henv2|left; apply sp_entry; assumption|exact H]. }
  rewrite lbind_ret in H.
  assert (Hent : match off with
                 | Some k => ok_or (checked_add k (entry_of f)) (LElf ElfOverflow)
                 | None => Ok (entry_of f)
                 end = if base_of off + entry_of f <? two64 then Ok (base_of off + entry_of f)
                       else Err (LElf ElfOverflow)).
  { destruct off as [k|]; cbn [base_of].
    - unfold checked_add. destruct (k + entry_of f <? two64); reflexivity.
    - rewrite N.add_0_l, (proj2 (N.ltb_lt _ _)) by apply u64at_lt. reflexivity. }
  rewrite Hent in H. clear Hent. destruct (N.ltb_spec (base_of off + entry_of f) two64) as [Hlt|Hge].
  2:{ rewrite lbind_err in H. eapply Hstop; [exact Henv2|left; apply sp_overflow; assumption|exact H]. }
  rewrite lbind_ok, lbind_lio in H.
  destruct (seek_start_cases r2 (phoff_of f)) as [(r3 & E3 & Henv3 & Hwhy)|[E3 Hin3]]; rewrite E3 in H.
  { eapply Hstop; [exact (rd_same_env_trans _ _ _ Henv2 Henv3)| |exact H]. destruct Hwhy as [Hw|Hw].
    - left. apply sp_seek; assumption.
    - right. now apply st_seek. }
  change (rd_maxpos r2) with (rd_maxpos r) in Hin3.
  set (r3 := rd_step r2 (phoff_of f)) in *.
  assert (Henv3 : rd_same_env r r3) by (exact (rd_same_env_trans _ _ _ Henv2 (rd_same_env_step _ _))).
  unfold lbind at 1 in H.
  destruct (read_phdrs (N.to_nat (phnum_of f)) r3 m) as [[r4 m4] o4] eqn:Ep.
  apply read_phdrs_spec in Ep as (-> & Henv4 & Hpost). change (rd_data r3) with f in Hpost. change (rd_pos r3) with (phoff_of f) in Hpost.
  rewrite N2Nat.id in Hpost. pose proof (rd_same_env_trans _ _ _ Henv3 Henv4) as Henv4'.
  destruct Hpost as [(-> & Htab)|(-> & Hwhy)].
  2:{ eapply Hstop; [exact Henv4'| |exact H]. destruct Hwhy as [Hw|[H0 Hw]].
      - right. now apply st_table.
      - left. apply sp_table; try assumption. intros [Hz|Hi]; lia. }
  assert (Htable : table_inside f) by (unfold table_inside; lia).
  assert (Hphs : map ph_of (map (fun i => slice f (phoff_of f + 56 * N.of_nat i) 56) (seq 0 (N.to_nat (phnum_of f)))) = phdrs_of f).
  { rewrite map_map. apply map_ext_in. intros i Hi. apply in_seq in Hi. unfold ph_at. apply ph_of_slice.
    destruct Htable as [Hz|Hz]; lia. }
  assert (Hsg : start_good f (rd_maxpos r) off highmem) by (unfold start_good; auto).
  unfold lbind in H.
  destruct (load_phdrs _ _ _ _ _ _ _ _) as [[r5 m5] o5] eqn:El.
  assert (Hq4 : ~ io_trouble be r4).
  { intros T. apply (proj2 (no_trouble_iff be r) (conj Hnf Hen)). exact (env_trouble _ _ _ Henv4' T). }
  apply no_trouble_iff in Hq4 as [N3 N4].
  apply load_phdrs_pours in El; [|now apply (env_wf r)|exact Hwm|exact N3|exact N4].
  rewrite Hphs in El. assert (m5 = m') as ->. { destruct o5; unfold lret in H; inversion H; auto. }
  unfold phdrs_effect in El. pose proof Henv4' as (Ed & Em & _). rewrite Ed, Em in El. fold f in El.
  destruct El as [(v & -> & Hf & Ho)|(pre & p & post & e & Hps & -> & Hf & He & Ho)].
  - eexists. split; [now apply et_all|exact Ho].
  - destruct (copying_error e) eqn:Ece; eexists; (split; [|exact Ho]).
    + exact (et_during _ _ _ _ _ pre p post e Hsg Hps Hf He Ece).
    + exact (et_before _ _ _ _ _ pre p post e Hsg Hps Hf He Ece).
Qed.

(** ** The other loaders *)
Lemma pe_load_pours a be off h r m r' m' o :
  wf_reader r -> wf_mem m = true -> never_faults r -> reads_enough be r -> pe_load a be off h r m = (r', m', o) ->
  (m' = m /\ (forall v, o <> Ok v) /\ o <> Err (LPe PeReadKernelImage)) \/
  (poured m (pe_load_addr a (rd_data r) off) (rd_data r) m' /\ ((exists v, o = Ok v) \/ o = Err (LPe PeReadKernelImage) \/ o = Err MemoryOverflow)).
Proof.
  intros Hwr Hwm Hnf Hen H. unfold pe_load in H. set (f := rd_data r) in *.
  rewrite lbind_lio in H. destruct (seek_end_cases r) as [(r1 & E1 & Henv1 & _)|E1]; rewrite E1 in H.
  { left; inversion H; subst; split; [reflexivity|]; split; [intros ? ?XX; discriminate XX|intros ?XX; discriminate XX]. }
  set (r1 := rd_step r (rd_len r)) in *. rewrite lbind_lio in H.
  destruct (seek_start_cases r1 0) as [(r2 & E2 & Henv2 & _)|[E2 _]]; rewrite E2 in H.
  { left; inversion H; subst; split; [reflexivity|]; split; [intros ? ?XX; discriminate XX|intros ?XX; discriminate XX]. }
  set (r2 := rd_step r1 0) in *.
  rewrite lbind_lio in H. assert (Esz : size (image_header a) = 64) by (destruct a; reflexivity). rewrite Esz in H.
  destruct (read_exact_cases r2 64) as [(r3 & E3 & _)|[E3 Hlen]]; rewrite E3 in H.
  { left; inversion H; subst; split; [reflexivity|]; split; [intros ? ?XX; discriminate XX|intros ?XX; discriminate XX]. }
  change (rd_data r2) with f in *. change (rd_pos r2) with 0 in *. change (0 + 64) with 64 in *.
  set (r3 := rd_step r2 64) in *.
  destruct (magic_ok a (slice f 0 64)); cbn [negb] in H; [|left; inversion H; subst; split; [reflexivity|]; split; [intros ? ?XX; discriminate XX|intros ?XX; discriminate XX]].
  rewrite (text_offset_spec f Hlen a) in H. fold (pe_base off) in H.
  destruct (match off with Some k => negb (k mod 0x200000 =? 0) | None => false end); [left; inversion H; subst; split; [reflexivity|]; split; [intros ? ?XX; discriminate XX|intros ?XX; discriminate XX]|].
  unfold checked_add in H at 1. fold (pe_load_addr a f off) in H.
  destruct (pe_load_addr a f off <? two64); cbn [ok_or] in H.
  2:{ rewrite lbind_err in H. left; inversion H; subst; split; [reflexivity|]; split; [intros ? ?XX; discriminate XX|intros ?XX; discriminate XX]. }
  rewrite lbind_ok in H. rewrite lbind_lio in H.
  destruct (seek_start_cases r3 0) as [(r4 & E4 & _)|[E4 _]]; rewrite E4 in H.
  { left; inversion H; subst; split; [reflexivity|]; split; [intros ? ?XX; discriminate XX|intros ?XX; discriminate XX]. }
  set (r4 := rd_step r3 0) in *.
  unfold lbind in H at 1.
  destruct (lcopy be (pe_load_addr a f off) (rd_len r) (LPe PeReadKernelImage) r4 m) as [[r5 m5] o5] eqn:Ec.
  apply copy_pours in Ec as (Hl & Ho5); [|exact Hwm|exact Hnf|destruct be; [exact I|exact Hen]].
  change (rd_data r4) with f in Hl. change (rd_pos r4) with 0 in Hl. unfold rd_len in Hl. fold f in Hl. rewrite part_slice, slice_full in Hl.
  right.
  assert (m5 = m' /\ ((exists v, o = Ok v) \/ (exists e, o5 = Err e /\ o = Err e) \/ o = Err MemoryOverflow)) as (-> & Ho).
  { destruct o5 as [[]|e|q]; [|inversion H; subst; split; [reflexivity|eauto]|destruct Ho5; discriminate].
    destruct (checked_add (pe_load_addr a f off) (rd_len r)); cbn [ok_or] in H.
    - rewrite lbind_ok in H. inversion H; subst. split; [reflexivity|eauto].
    - rewrite lbind_err in H. inversion H; subst. split; [reflexivity|auto]. }
  split; [exact Hl|]. destruct Ho as [Ho|[(e & Ho1 & Ho2)|Ho]]; [auto| |auto].
  destruct Ho5 as [Ho5|Ho5]; [congruence|]. rewrite Ho5 in Ho1. injection Ho1 as <-. auto.
Qed.

Lemma load_dtb_pours be a r m r' m' o :
  wf_reader r -> wf_mem m = true -> never_faults r -> reads_enough be r -> load_dtb be a r m = (r', m', o) ->
  (m' = m /\ o <> Ok tt /\ o <> Err (LPe ReadDtbImage)) \/ (poured m a (rd_data r) m' /\ (o = Ok tt \/ o = Err (LPe ReadDtbImage))).
Proof.
  intros Hwr Hwm Hnf Hen H. unfold load_dtb in H. set (f := rd_data r) in *.
  rewrite lbind_lio in H. destruct (seek_end_cases r) as [(r1 & E1 & Henv1 & _)|E1]; rewrite E1 in H.
  { left; inversion H; subst; split; [reflexivity|]; split; intros ?XX; discriminate XX. }
  set (r1 := rd_step r (rd_len r)) in *.
  destruct (0x200000 <? rd_len r); [left; inversion H; subst; split; [reflexivity|]; split; intros ?XX; discriminate XX|]. rewrite lbind_lio in H.
  destruct (seek_start_cases r1 0) as [(r2 & E2 & Henv2 & _)|[E2 _]]; rewrite E2 in H.
  { left; inversion H; subst; split; [reflexivity|]; split; intros ?XX; discriminate XX. }
  set (r2 := rd_step r1 0) in *.
  apply copy_pours in H as (Hl & Ho5); [|exact Hwm|exact Hnf|destruct be; [exact I|exact Hen]].
  change (rd_data r2) with f in Hl. change (rd_pos r2) with 0 in Hl. unfold rd_len in Hl. fold f in Hl. rewrite part_slice, slice_full in Hl.
  right. split; [exact Hl|exact Ho5].
Qed.

Lemma bz_load_pours be off h r m r' m' o :
  wf_reader r -> wf_mem m = true -> ~ short_or_fault r -> bz_load be off h r m = (r', m', o) ->
  (m' = m /\ (forall v, o <> Ok v) /\ o <> Err (LBz ReadBzImageCompressedKernel)) \/
  (poured m (bz_load_addr (rd_data r) off) (payload (rd_data r)) m' /\ ((exists v, o = Ok v) \/ o = Err (LBz ReadBzImageCompressedKernel) \/ o = Err MemoryOverflow)).
Proof.
  intros Hwr Hwm Hns H. unfold bz_load in H. set (f := rd_data r) in *.
  assert (Hnf : never_faults r). { intros q i. destruct (rd_fault r q i) eqn:E; [|reflexivity]. exfalso. apply Hns. left. eauto. }
  assert (Hen : reads_enough be r). { apply unbroken_enough. right. intros S0. apply Hns. now right. }
  rewrite lbind_lio in H. destruct (seek_end_cases r) as [(r1 & E1 & Henv1 & _)|E1]; rewrite E1 in H.
  { left; inversion H; subst; split; [reflexivity|]; split; [intros ? ?XX; discriminate XX|intros ?XX; discriminate XX]. }
  set (r1 := rd_step r (rd_len r)) in *. rewrite lbind_lio in H.
  destruct (seek_start_cases r1 0x1f1) as [(r2 & E2 & Henv2 & _)|[E2 _]]; rewrite E2 in H.
  { left; inversion H; subst; split; [reflexivity|]; split; [intros ? ?XX; discriminate XX|intros ?XX; discriminate XX]. }
  set (r2 := rd_step r1 0x1f1) in *. rewrite lbind_lio in H.
  destruct (read_header_cases r2) as [(r3 & E3 & _)|(r3 & k & E3 & Henv3 & Hk)]; rewrite E3 in H.
  { left; inversion H; subst; split; [reflexivity|]; split; [intros ? ?XX; discriminate XX|intros ?XX; discriminate XX]. }
  change (rd_data r2) with f in *. change (rd_pos r2) with 0x1f1 in *. change (rd_chunk r2) with (rd_chunk r) in Hk.
  assert (Hh : (let h := slice f 0x1f1 (N.min k 123) in h ++ zeros (123 - lenN h)) = header_got f k).
  { unfold header_got. cbv zeta. now rewrite part_slice. }
  rewrite Hh in H.
  rewrite hdr_header, hdr_version, hdr_loadflags, hdr_setup_sects, hdr_code32, land1 in H.
  set (g := seen f k) in *.
  assert (k = 123) as ->. { destruct Hk as [Hk|Hk]; [exact Hk|]. exfalso. apply Hns. now right. }
  destruct (N.eqb_spec (bz_magic g) 0x53726448) as [Hmag|Hmag]; cbn [negb] in H.
  2:{ left; inversion H; subst; split; [reflexivity|]; split; [intros ? ?XX; discriminate XX|intros ?XX; discriminate XX]. }
  destruct ((bz_version g <? 0x0200) || (bz_loadflags g mod 2 =? 0)) eqn:Evl.
  { left; inversion H; subst; split; [reflexivity|]; split; [intros ? ?XX; discriminate XX|intros ?XX; discriminate XX]. }
  assert (Hgood : bz_header_good g).
  { apply orb_false_iff in Evl as [Ev El]. apply N.ltb_ge in Ev. apply N.eqb_neq in El.
    unfold bz_header_good. repeat (split; [assumption|]). pose proof (mod2_cases (bz_loadflags g)). lia. }
  match type of H with context [ok_or ?x (LBz BzOverflow)] => destruct x as [ss|] eqn:Ess end; cbn [ok_or] in H.
  2:{ rewrite lbind_err in H. left; inversion H; subst; split; [reflexivity|]; split; [intros ? ?XX; discriminate XX|intros ?XX; discriminate XX]. }
  rewrite lbind_ok in H.
  assert (Es : ss = bz_setup_size f).
  { rewrite <- (seen_setup_size_good f 123 Hgood). fold g. unfold bz_setup_size.
    unfold checked_add in Ess. destruct (_ <? two64) in Ess; [|discriminate].
    unfold checked_mul in Ess. destruct (_ <? two64) in Ess; [|discriminate]. injection Ess as <-. lia. }
  subst ss.
  unfold checked_sub in H. destruct (N.leb_spec (bz_setup_size f) (rd_len r)) as [Hu|Hu]; cbn [ok_or] in H.
  2:{ rewrite lbind_err in H. left; inversion H; subst; split; [reflexivity|]; split; [intros ? ?XX; discriminate XX|intros ?XX; discriminate XX]. }
  rewrite lbind_ok in H.
  destruct (match h with Some hh => _ | None => _ end).
  { left; inversion H; subst; split; [reflexivity|]; split; [intros ? ?XX; discriminate XX|intros ?XX; discriminate XX]. }
  cbv zeta in H. fold (bz_load_addr g off) in H. rewrite lbind_lio in H.
  destruct (seek_start_cases r3 (bz_setup_size f)) as [(r4 & E4 & Henv4 & _)|[E4 _]]; rewrite E4 in H.
  { left; inversion H; subst; split; [reflexivity|]; split; [intros ? ?XX; discriminate XX|intros ?XX; discriminate XX]. }
  set (r4 := rd_step r3 (bz_setup_size f)) in *.
  unfold lbind in H at 1.
  destruct (lcopy be (bz_load_addr g off) (rd_len r - bz_setup_size f) (LBz ReadBzImageCompressedKernel) r4 m) as [[r5 m5] o5] eqn:Ec.
  assert (Henv : rd_same_env r r4).
  { eapply rd_same_env_trans; [|apply rd_same_env_step]. eapply rd_same_env_trans; [|exact Henv3]. repeat split. }
  apply copy_pours in Ec as (Hl & Ho5); [|exact Hwm|intros q i; rewrite (proj2 (proj2 (proj2 Henv))); apply Hnf|exact (reads_enough_env _ _ _ Henv Hen)].
  rewrite (proj1 Henv) in Hl. change (rd_pos r4) with (bz_setup_size f) in Hl. fold f in Hl.
  change (part f (bz_setup_size f) (rd_len r - bz_setup_size f)) with (payload f) in Hl.
  assert (Eg : bz_load_addr g off = bz_load_addr f off).
  { unfold bz_load_addr. destruct off; [reflexivity|]. unfold g. apply seen_code32. lia. }
  rewrite Eg in Hl. right.
  assert (m5 = m' /\ ((exists v, o = Ok v) \/ (exists e, o5 = Err e /\ o = Err e) \/ o = Err MemoryOverflow)) as (-> & Ho).
  { destruct o5 as [[]|e|q]; [|inversion H; subst; split; [reflexivity|eauto]|destruct Ho5; discriminate].
    destruct (checked_add (bz_load_addr g off) (rd_len r - bz_setup_size f)); cbn [ok_or] in H.
    - rewrite lbind_ok in H. inversion H; subst. split; [reflexivity|eauto].
    - rewrite lbind_err in H. inversion H; subst. split; [reflexivity|auto]. }
  split; [exact Hl|]. destruct Ho as [Ho|[(e & Ho1 & Ho2)|Ho]]; [auto| |auto].
  destruct Ho5 as [Ho5|Ho5]; [congruence|]. rewrite Ho5 in Ho1. injection Ho1 as <-. auto.
Qed.

Lemma load_cmdline_pours bld be m addr c m' o : wf_mem m = true -> load_cmdline bld be m addr c = (m', o) ->
  (m' = m /\ o <> Ok tt /\ o <> Err CommandLineCopy) \/ exists s, as_cstring c = Ok s /\ poured m addr (s ++ [x00]) m' /\ (o = Ok tt \/ o = Err CommandLineCopy).
Proof.
  intros Hw H. unfold load_cmdline in H. destruct (as_cstring c) as [s|e|p].
  2:{ left; inversion H; subst. split; [reflexivity|]; split; intros ?XX; discriminate XX. }
  2:{ left; inversion H; subst. split; [reflexivity|]; split; intros ?XX; discriminate XX. }
  cbv zeta in H. destruct (usub bld (lenN (bytes_with_nul s)) 1) as [d|e|p] eqn:Eu.
  2:{ unfold usub in Eu. destruct (_ <=? _) in Eu; [discriminate|]. destruct bld; discriminate. }
  2:{ left; inversion H; subst. split; [reflexivity|]; split; intros ?XX; discriminate XX. }
  destruct (checked_add addr d) as [e|]; [|left; inversion H; subst; split; [reflexivity|]; split; intros ?XX; discriminate XX].
  destruct (last_addr m <? e); [left; inversion H; subst; split; [reflexivity|]; split; intros ?XX; discriminate XX|].
  destruct (write_slice be m (bytes_with_nul s) addr) as [m1 o1] eqn:E.
  apply write_pours in E as (Hl & Ho); [|exact Hw]. right. exists s. split; [reflexivity|].
  destruct Ho as [-> | ->]; inversion H; subst; auto.
Qed.
Lemma check_and_write_pours be m a bs e1 e2 m' o : wf_mem m = true -> check_and_write be m a bs e1 e2 = (m', o) ->
  regions m' = regions m /\ ((m' = m /\ o = Err e1) \/ (poured m a bs m' /\ (o = Ok tt \/ o = Err e2))).
Proof.
  intros Hw H. unfold check_and_write in H. destruct (checked_offset m a (lenN bs)); [|inversion H; subst; auto].
  destruct (write_slice be m bs a) as [m1 o1] eqn:E. apply write_pours in E as (Hl & Ho); [|exact Hw].
  destruct Ho as [-> | ->]; inversion H; subst; (split; [exact (poured_regions _ _ _ _ Hl)|]); right; auto.
Qed.

(** ** One effect *)
Lemma poured_det m a bs m1 m2 m1' m2' : mem_same m1 m2 -> mem_same m m1 -> poured m1 a bs m1' -> poured m2 a bs m2' -> mem_same m1' m2'.
Proof.
  intros [R1 B1] _ (k1 & K1 & K2 & K3 & K4 & K5) (k2 & L1 & L2 & L3 & L4 & L5).
  assert (k1 = k2) as <-.
  { destruct (N.lt_trichotomy k1 k2) as [Hl|[->|Hl]]; [exfalso|reflexivity|exfalso].
    - apply K3; [lia|]. apply (backed_regions m1 m2 _ R1). apply L2; lia.
    - apply L3; [lia|]. apply (backed_regions m1 m2 _ R1). apply K2; lia. }
  split; [congruence|]. intros x. rewrite K5, L5. now apply put_ext.
Qed.
Lemma poured_all_det ws : forall m1 m2 m1' m2', mem_same m1 m2 -> poured_all m1 ws m1' -> poured_all m2 ws m2' -> mem_same m1' m2'.
Proof.
  induction ws as [|[a bs] ws IH]; intros m1 m2 m1' m2' Hs; cbn [poured_all].
  - destruct Hs as [R B]. intros [R1 B1] [R2 B2]. split; [congruence|]. intros x. now rewrite B2, B1.
  - intros (n1 & P1 & Q1) (n2 & P2 & Q2). apply (IH n1 n2); [|exact Q1|exact Q2].
    apply (poured_det m1 a bs m1 m2); [exact Hs|apply mem_same_refl|exact P1|exact P2].
Qed.
