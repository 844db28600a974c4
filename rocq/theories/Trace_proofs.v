(** Lemmas about the stores made by the loading calls. *)
From Verif Require Import Base Base_proofs Io Mem SpecMem Mem_proofs Layout SpecFile File_proofs Text Cmdline Loader Elf SpecElf
  Elf_proofs Elf_proofs2 BzImage SpecBz Bz_proofs Pe SpecPe Pe_proofs BootParams Configurators SpecVmm Vmm_proofs Sim_proofs Props_Vmm SpecTrace.
Open Scope loader_scope.

(** ** Stores and pieces *)
Lemma stores_app a l1 : forall l2, stores a (l1 ++ l2) = stores a l1 ++ stores (a + lenN l1) l2.
Proof.
  revert a. induction l1 as [|b l1 IH]; intros a l2; cbn [stores app].
  - now rewrite N.add_0_r.
  - rewrite IH, lenN_cons. do 3 f_equal. lia.
Qed.
Lemma piece_stores_eq a bs : piece_stores (a, bs) = stores a bs.
Proof.
  unfold piece_stores. cbn [fst snd]. revert a. induction bs as [|b bs IH]; intros a; [reflexivity|].
  cbn [length seq map combine stores]. f_equal; [f_equal; lia|].
  rewrite <- seq_shift, map_map. rewrite <- IH. f_equal. apply map_ext. intros i. lia.
Qed.
Lemma piece_stores_eq' s : piece_stores s = stores (fst s) (snd s).
Proof. destruct s. apply piece_stores_eq. Qed.
Lemma all_stores_eq segs : all_stores segs = flat_map (fun s => stores (fst s) (snd s)) segs.
Proof. unfold all_stores. apply flat_map_ext. apply piece_stores_eq'. Qed.

Lemma replay_app l1 l2 f : replay (l1 ++ l2) f = replay l2 (replay l1 f).
Proof. apply fold_left_app. Qed.
Lemma replay_ext l : forall f g x, f x = g x -> replay l f x = replay l g x.
Proof.
  induction l as [|s l IH]; intros f g x H; [exact H|]. cbn. apply IH. now destruct (x =? fst s).
Qed.
Lemma replay_stores bs : forall a f x, replay (stores a bs) f x = store f a bs x.
Proof. induction bs as [|b bs IH]; intros a f x; [reflexivity|]. cbn. apply IH. Qed.
Lemma replay_pieces segs : forall f x, replay (all_stores segs) f x = overlay f segs x.
Proof.
  rewrite all_stores_eq. induction segs as [|[a bs] segs IH]; intros f x; [reflexivity|].
  cbn [flat_map fst snd]. rewrite replay_app. rewrite IH. change (overlay f ((a, bs) :: segs) x) with (overlay (put f a bs) segs x).
  apply overlay_ext. intros y. rewrite replay_stores. apply store_put.
Qed.
Lemma stored_replay m m' segs : stored m m' segs -> exists l, made m m' l /\ forall x, gm_byte m' x = replay l (gm_byte m) x.
Proof.
  intros ((_ & B) & Lg). exists (all_stores segs). split; [unfold made; now rewrite all_stores_eq|].
  intros x. rewrite replay_pieces. apply B.
Qed.
Lemma made_unique m m' l l' : made m m' l -> made m m' l' -> l = l'.
Proof. unfold made. intros H1 H2. rewrite H1 in H2. now apply app_inv_head in H2. Qed.
Lemma made_refl m : made m m [].
Proof. unfold made. now rewrite app_nil_r. Qed.
Lemma made_trans m m1 m2 l1 l2 : made m m1 l1 -> made m1 m2 l2 -> made m m2 (l1 ++ l2).
Proof. unfold made. intros H1 H2. now rewrite H2, H1, app_assoc. Qed.
Lemma made_store m a bs : made m (mem_store m a bs) (stores a bs).
Proof. reflexivity. Qed.

Lemma stores_prefix a (d : bytes) o k n : k <= n -> exists rest, stores a (slice d o n) = stores a (slice d o k) ++ rest.
Proof.
  intros H. replace n with (k + (n - k)) by lia. rewrite slice_split_any, stores_app. eauto.
Qed.

(** ** The memory operations *)
Lemma write_loop_made fuel : forall m cur data total m' o, wf_mem m = true ->
  write_loop fuel m cur data total = (m', o) ->
  exists k, k <= lenN data /\ regions m' = regions m /\ made m m' (stores cur (slice data 0 k)) /\
    (forall t, o = Ok t -> t = total + k).
Proof.
  induction fuel as [|fuel IH]; intros m cur data total m' o Hw H; cbn [write_loop] in H.
  { injection H as <- <-. exists 0. rewrite slice_zero. split; [lia|]. split; [reflexivity|]. split; [apply made_refl|]. discriminate. }
  destruct (find_region m cur) as [r|] eqn:Ef.
  2:{ injection H as <- <-. exists 0. rewrite slice_zero. split; [lia|]. split; [reflexivity|]. split; [apply made_refl|].
      intros t. destruct (total =? 0); intros E; [discriminate|]. injection E as <-. lia. }
  apply find_region_some in Ef as (Hin & Hr1 & Hr2). destruct (wf_region m r Hw Hin) as [Hlen Hend].
  set (n := N.min (r_base r + r_len r - cur) (lenN data)) in *.
  destruct (N.eqb_spec n 0) as [E0|E0].
  { injection H as <- <-. exists n. split; [lia|]. split; [reflexivity|]. split; [apply made_store|]. intros t E. injection E as <-. lia. }
  destruct (N.eqb_spec n (lenN data)) as [E1|E1].
  { injection H as <- <-. exists n. split; [lia|]. split; [reflexivity|]. split; [apply made_store|]. intros t E. now injection E as <-. }
  unfold next_addr in H. rewrite (proj2 (N.ltb_lt (cur + n) two64)) in H by lia.
  apply IH in H as (k & Hk & Hr & Hm & Ho); [|exact Hw].
  rewrite lenN_slice in Hk.
  exists (n + k). split; [lia|]. split; [exact Hr|]. split.
  - rewrite slice_split_any, stores_app. rewrite lenN_slice. replace (N.min n (lenN data - 0)) with n by lia.
    eapply made_trans; [apply made_store|]. rewrite N.add_0_l. rewrite slice_slice in Hm by lia. rewrite N.add_0_r in Hm. exact Hm.
  - intros t Et. rewrite (Ho t Et). lia.
Qed.

Lemma write_slice_made be m data a m' o : wf_mem m = true -> write_slice be m data a = (m', o) ->
  exists l rest, regions m' = regions m /\ made m m' l /\ l ++ rest = stores a data /\ (o = Ok tt -> rest = []).
Proof.
  intros Hw H.
  assert (D : (be = GetSlices /\ data = [] /\ m' = m) \/ exists o1, write_loop (S (length data)) m a data 0 = (m', o1) /\
     (o = Ok tt -> o1 = Ok (lenN data))).
  { assert (G : (match write_loop (S (length data)) m a data 0 with
      | (m', Ok n) => (m', if n =? lenN data then Ok tt else Err tt)
      | (m', Err e) => (m', Err e)
      | (m', Panic p) => (m', Panic p)
      end) = (m', o) -> exists o1, write_loop (S (length data)) m a data 0 = (m', o1) /\ (o = Ok tt -> o1 = Ok (lenN data))).
    { destruct (write_loop (S (length data)) m a data 0) as [m1 [n|e|p]]; intros E; injection E as <- <-; eexists; (split; [reflexivity|]).
      - destruct (N.eqb_spec n (lenN data)); [now subst|discriminate].
      - discriminate.
      - discriminate. }
    unfold write_slice in H. destruct be; [right; exact (G H)|]. destruct data; [|right; exact (G H)]. left. injection H as <- <-. auto. }
  destruct D as [(_ & -> & ->)|(o1 & E & Ho)].
  { exists [], []. split; [reflexivity|]. split; [apply made_refl|]. split; reflexivity. }
  apply write_loop_made in E as (k & Hk & Hr & Hm & Hok); [|exact Hw].
  destruct (stores_prefix a data 0 k (lenN data) Hk) as (rest & Er). rewrite slice_full in Er.
  exists (stores a (slice data 0 k)), rest. split; [exact Hr|]. split; [exact Hm|]. split; [now rewrite Er|].
  intros Eo. specialize (Hok _ (Ho Eo)). assert (k = lenN data) as -> by lia. rewrite slice_full in Er.
  rewrite <- (app_nil_r (stores a data)) in Er at 1. now apply app_inv_head in Er.
Qed.

Lemma read_loop_made be fuel : forall r m cur left total r' m' o,
  wf_mem m = true -> reads_enough be r ->
  read_loop be fuel r m cur left total = (r', m', o) ->
  exists k, k <= left /\ k <= rd_len r - rd_pos r /\ regions m' = regions m /\
     made m m' (stores cur (slice (rd_data r) (rd_pos r) k)) /\ (forall t, o = Ok t -> t = total + k).
Proof.
  assert (Z : forall r m cur left total (o : outcome unit N), (forall t, o = Ok t -> t = total) -> exists k, k <= left /\ k <= rd_len r - rd_pos r /\ regions m = regions m /\
     made m m (stores cur (slice (rd_data r) (rd_pos r) k)) /\ (forall t, o = Ok t -> t = total + k)).
  { intros r m cur left total o Ho. exists 0. rewrite slice_zero. split; [lia|]. split; [lia|]. split; [reflexivity|]. split; [apply made_refl|].
    intros t E. rewrite (Ho t E). lia. }
  induction fuel as [|fuel IH]; intros r m cur left total r' m' o Hw Hen H; cbn [read_loop] in H.
  { injection H as <- <- <-. apply Z. discriminate. }
  destruct (find_region m cur) as [rg|] eqn:Ef.
  2:{ injection H as <- <- <-. apply Z. intros t. destruct be; [destruct (total =? 0)|]; intros E; try discriminate. now injection E as <-. }
  apply find_region_some in Ef as (Hin & Hr1 & Hr2). destruct (wf_region m rg Hw Hin) as [Hlen Hend].
  set (n := N.min (r_base rg + r_len rg - cur) left) in *.
  destruct (read_volatile r n) as [r1 [bs|]] eqn:Er.
  2:{ injection H as <- <- <-. apply Z. discriminate. }
  apply read_volatile_some in Er as (Hk & Hdata & Hpos & Hmp & Hch & Hfa & _ & Hbs & Hkeq).
  set (adv := match be with TryAccess => lenN bs | GetSlices => n end) in *.
  assert (Hst : made m (mem_store m cur bs) (stores cur (slice (rd_data r) (rd_pos r) (lenN bs)))).
  { rewrite <- Hbs. apply made_store. }
  assert (Hcase : adv = lenN bs \/ lenN bs = rd_len r - rd_pos r /\ lenN bs < adv).
  { unfold adv. destruct be; [now left|]. specialize (Hen (rd_ops r)). lia. }
  assert (Hadv : adv <= n /\ lenN bs <= adv) by (destruct be; unfold adv in *; lia).
  destruct (N.eqb_spec adv 0) as [E0|E0].
  { injection H as <- <- <-. exists (lenN bs). split; [lia|]. split; [lia|]. split; [reflexivity|]. split; [exact Hst|].
    intros t E. injection E as <-. lia. }
  destruct (N.eqb_spec adv left) as [E1|E1].
  { injection H as <- <- <-. exists (lenN bs). split; [lia|]. split; [lia|]. split; [reflexivity|]. split; [exact Hst|].
    intros t E. now injection E as <-. }
  unfold next_addr in H. rewrite (proj2 (N.ltb_lt (cur + adv) two64)) in H by lia.
  apply IH in H as (k & Hk1 & Hk2 & Hk3 & Hk4 & Hk5).
  - unfold rd_len in *. rewrite Hdata, Hpos in *. exists (lenN bs + k).
    split; [lia|]. split; [lia|]. split; [exact Hk3|]. split.
    + rewrite slice_split_any, stores_app. rewrite lenN_slice. replace (N.min (lenN bs) _) with (lenN bs) by lia.
      eapply made_trans; [exact Hst|]. destruct Hcase as [Hc|(Hc & Hc2)].
      * rewrite <- Hc at 1. exact Hk4.
      * assert (k = 0) as -> by lia. rewrite slice_zero in Hk4 |- *. exact Hk4.
    + intros t Et. rewrite (Hk5 t Et). lia.
  - exact Hw.
  - destruct be; [exact I|]. intros i. unfold rd_len. rewrite Hdata, Hch. apply Hen.
Qed.

(** What a copying step leaves behind: it made the stores [l], the first ones of the planned [p]. *)
Definition leaves (m m' : gmem) (ok : Prop) (p : list (N * byte)) : Prop :=
  exists l rest, made m m' l /\ p = l ++ rest /\ (ok -> rest = []).

Lemma leaves_none m (ok : Prop) p : (ok -> p = []) -> leaves m m ok p.
Proof. intros H. exists [], p. split; [apply made_refl|]. split; [reflexivity|exact H]. Qed.
Lemma leaves_seq m m1 m2 (ok1 ok2 : Prop) p1 p2 : ok1 -> leaves m m1 ok1 p1 -> leaves m1 m2 ok2 p2 -> leaves m m2 ok2 (p1 ++ p2).
Proof.
  intros H1 (l1 & r1 & M1 & E1 & O1) (l2 & r2 & M2 & E2 & O2). specialize (O1 H1). subst r1 p1 p2. rewrite app_nil_r.
  exists (l1 ++ l2), r2. split; [exact (made_trans _ _ _ _ _ M1 M2)|]. split; [now rewrite app_assoc|exact O2].
Qed.
Lemma leaves_stop m m' (ok1 ok2 : Prop) p1 p2 : ~ ok2 -> leaves m m' ok1 p1 -> leaves m m' ok2 (p1 ++ p2).
Proof.
  intros H1 (l1 & r1 & M1 & E1 & O1). subst p1. exists l1, (r1 ++ p2). split; [exact M1|]. split; [now rewrite app_assoc|]. tauto.
Qed.
Lemma leaves_weaken m m' (ok1 ok2 : Prop) p : (ok2 -> ok1) -> leaves m m' ok1 p -> leaves m m' ok2 p.
Proof. intros H (l & r & M & E & O). exists l, r. auto. Qed.

Lemma copy_leaves be r m a n e r' m' o : wf_mem m = true -> reads_enough be r ->
  lcopy be a n e r m = (r', m', o) ->
  regions m' = regions m /\ rd_same_env r r' /\ leaves m m' (o = Ok tt) (stores a (slice (rd_data r) (rd_pos r) n)).
Proof.
  intros Hw Hen H. unfold lcopy in H.
  destruct (read_exact_volatile_from be r m a n) as [[r1 m1] o1] eqn:E.
  destruct (rev_frame _ _ _ _ _ _ _ _ Hw E) as ((Hreg & _) & Henv & _).
  assert (r1 = r' /\ m1 = m' /\ (o = Ok tt -> o1 = Ok tt)) as (-> & -> & Ho).
  { destruct o1 as [[]|x|x]; inversion H; subst; auto; (split; [reflexivity|]; split; [reflexivity|]; discriminate). }
  split; [exact Hreg|]. split; [exact Henv|].
  assert (D : (be = GetSlices /\ n = 0 /\ m' = m) \/ (be = GetSlices -> n <> 0)).
  { destruct be; [right; discriminate|]. destruct n; [|right; discriminate]. left. cbn in E. injection E as <- <- <-. auto. }
  destruct D as [(_ & -> & ->)|D]; [rewrite slice_zero; now apply leaves_none|].
  rewrite (rev_unfold be r m a n D) in E.
  destruct (read_loop be _ r m a n 0) as [[r2 m2] o2] eqn:El.
  apply read_loop_made in El as (k & K1 & K2 & _ & K4 & K5); [|exact Hw|exact Hen].
  assert (m2 = m' /\ (o1 = Ok tt -> k = n)) as (-> & Hk).
  { destruct o2 as [t|x|x]; injection E as <- <- <-; (split; [reflexivity|]); try discriminate.
    specialize (K5 t eq_refl). destruct (N.eqb_spec t n); [lia|discriminate]. }
  destruct (stores_prefix a (rd_data r) (rd_pos r) k n K1) as (rest & Er).
  exists (stores a (slice (rd_data r) (rd_pos r) k)), rest. split; [exact K4|]. split; [exact Er|].
  intros E2. rewrite (Hk (Ho E2)) in Er. rewrite <- (app_nil_r (stores a (slice _ _ n))) in Er at 1. now apply app_inv_head in Er.
Qed.

(** ** The loaders *)
Lemma reads_enough_env be r r' : rd_same_env r r' -> reads_enough be r -> reads_enough be r'.
Proof.
  intros (E1 & E2 & E3 & E4). destruct be; [auto|]. unfold reads_enough, full_reads, rd_len. rewrite E1, E3. auto.
Qed.
Lemma unbroken_enough be r : be = TryAccess \/ ~ short_reads r -> reads_enough be r.
Proof.
  intros H. destruct be; [exact I|]. destruct H as [H|H]; [discriminate|]. intros i. unfold rd_len.
  destruct (N.leb_spec (lenN (rd_data r)) (rd_chunk r i)) as [?|Hc]; [assumption|]. exfalso. apply H. now exists i.
Qed.
Lemma not_ok_err {A} (e : lerror) : ~ (exists v : A, Err e = Ok v).
Proof. intros (v & E). discriminate. Qed.
Lemma not_ok_panic {A} (p : panic) : ~ (exists v : A, @Panic lerror A p = Ok v).
Proof. intros (v & E). discriminate. Qed.
Ltac none := apply leaves_none; intros ?XX; exfalso; first [discriminate | now destruct XX].

Lemma load_phdrs_leaves bld be off phdrs : forall kend cap r m r' m' o,
  wf_reader r -> wf_mem m = true -> reads_enough be r ->
  load_phdrs bld be off phdrs kend cap r m = (r', m', o) ->
  leaves m m' (exists v, o = Ok v) (all_stores (segs_of (rd_data r) off (map ph_of phdrs))).
Proof.
  induction phdrs as [|b phdrs IH]; intros kend cap r m r' m' o Hwr Hwm Hen H; cbn [load_phdrs map] in H |- *.
  { inversion H; subst. now apply leaves_none. }
  set (p := ph_of b) in *. set (ps := map ph_of phdrs) in *.
  assert (Hload : negb (phdr_get "p_type" b =? PT_LOAD) || (phdr_get "p_filesz" b =? 0) = negb (is_load p)).
  { unfold is_load. rewrite negb_andb, negb_involutive. reflexivity. }
  rewrite Hload in H. destruct (is_load p) eqn:El; cbn [negb] in H.
  2:{ assert (Hnil : segs_of (rd_data r) off (p :: ps) = segs_of (rd_data r) off ps).
      { unfold segs_of, loaded. cbn [filter]. now rewrite El. }
      rewrite Hnil.
      assert (Hgo : forall cap1 r1, rd_same_env r r1 -> load_phdrs bld be off phdrs kend cap1 r1 m = (r', m', o) ->
        leaves m m' (exists v, o = Ok v) (all_stores (segs_of (rd_data r) off ps))).
      { intros cap1 r1 Henv E. pose proof (proj1 Henv) as Hd. rewrite <- Hd. eapply IH; [| | |exact E].
        - now apply (env_wf r).
        - exact Hwm.
        - now apply (reads_enough_env _ r). }
      unfold lbind in H at 1.
      destruct (phdr_get "p_type" b =? PT_NOTE); [destruct off as [k|]|].
      - cbn in H. eapply Hgo; [apply rd_same_env_refl|exact H].
      - destruct (parse_elf_note bld b r m) as [[r1 m1] o1] eqn:Ep.
        apply parse_elf_note_spec in Ep as (-> & Henv & _); [|exact Hwr].
        destruct o1 as [c|e|q]; [|inversion H; subst; none|inversion H; subst; none].
        eapply Hgo; [exact Henv|exact H].
      - cbn in H. eapply Hgo; [apply rd_same_env_refl|exact H]. }
  assert (Hcons : all_stores (segs_of (rd_data r) off (p :: ps)) =
    stores (base_of off + ph_paddr p) (slice (rd_data r) (ph_offset p) (ph_filesz p)) ++ all_stores (segs_of (rd_data r) off ps)).
  { unfold segs_of, loaded. cbn [filter]. rewrite El. cbn [map]. unfold all_stores at 1. cbn [flat_map].
    unfold seg_of at 1. now rewrite piece_stores_eq, part_slice. }
  rewrite Hcons. rewrite lbind_lio in H.
  destruct (seek_start_cases r (phdr_get "p_offset" b)) as [(r1 & E1 & Henv1 & _)|[E1 _]]; rewrite E1 in H.
  { inversion H; subst; none. }
  set (r1 := rd_step r (phdr_get "p_offset" b)) in *.
  destruct (match off with Some k => ok_or (checked_add k (phdr_get "p_paddr" b)) (LElf InvalidProgramHeaderAddress) | None => Ok (phdr_get "p_paddr" b) end)
    as [mo|e|q] eqn:Emo.
  2:{ rewrite lbind_err in H. inversion H; subst; none. }
  2:{ unfold lbind, lpure in H. inversion H; subst; none. }
  rewrite lbind_ok in H.
  assert (mo = base_of off + ph_paddr p) as ->.
  { destruct off as [k|]; cbn [base_of].
    - unfold checked_add in Emo. destruct (k + phdr_get "p_paddr" b <? two64); [|discriminate]. injection Emo as <-. reflexivity.
    - injection Emo as <-. rewrite N.add_0_l. reflexivity. }
  unfold lbind in H at 1.
  destruct (lcopy be (base_of off + ph_paddr p) (phdr_get "p_filesz" b) (LElf ReadKernelImage) r1 m) as [[r2 m2] o2] eqn:Ec.
  apply copy_leaves in Ec as (Hreg & Henv2 & Hl); [|exact Hwm|exact (reads_enough_env be r r1 (rd_same_env_step _ _) Hen)].
  change (rd_data r1) with (rd_data r) in Hl. change (rd_pos r1) with (ph_offset p) in Hl. change (phdr_get "p_filesz" b) with (ph_filesz p) in Hl.
  destruct o2 as [[]|e|q]; [|inversion H; subst; eapply leaves_stop; [apply not_ok_err|exact Hl]|inversion H; subst; eapply leaves_stop; [apply not_ok_panic|exact Hl]].
  destruct (checked_add (base_of off + ph_paddr p) (phdr_get "p_memsz" b)) as [ke|]; cbn [ok_or] in H.
  2:{ rewrite lbind_err in H. inversion H; subst. eapply leaves_stop; [apply not_ok_err|exact Hl]. }
  rewrite lbind_ok in H.
  assert (Henv : rd_same_env r r2) by exact (rd_same_env_trans _ _ _ (rd_same_env_step _ _) Henv2).
  apply (leaves_seq m m2 m' (@Ok lerror unit tt = Ok tt)); [reflexivity|exact Hl|].
  rewrite <- (proj1 Henv). eapply IH; [| | |exact H].
  - now apply (env_wf r).
  - now rewrite (wf_mem_regions _ _ Hreg).
  - now apply (reads_enough_env _ r).
Qed.

Lemma elf_load_leaves bld be off h r m r' m' o :
  wf_reader r -> wf_mem m = true -> reads_enough be r -> elf_load bld be off h r m = (r', m', o) ->
  leaves m m' (exists v, o = Ok v) (all_stores (segs_of (rd_data r) off (phdrs_of (rd_data r)))).
Proof.
  intros Hwr Hwm Hen H. unfold elf_load in H. set (f := rd_data r) in *.
  rewrite lbind_lio in H.
  destruct (seek_start_cases r 0) as [(r1 & E1 & Henv1 & _)|[E1 _]]; rewrite E1 in H.
  { inversion H; subst; none. }
  set (r1 := rd_step r 0) in *. rewrite lbind_lio in H. change (size Elf64_Ehdr) with 64 in H.
  destruct (read_exact_cases r1 64) as [(r2 & E2 & Henv2 & _)|[E2 Hin]]; rewrite E2 in H.
  { inversion H; subst; none. }
  change (rd_pos r1) with 0 in *. change (rd_data r1) with f in *. rewrite N.add_0_l in *.
  set (r2 := rd_step r1 64) in *.
  unfold lbind at 1 in H. unfold lpure at 1 in H.
  destruct (validate_header (slice f 0 64)) as [[]|e|q]; [|inversion H; subst; none|inversion H; subst; none].
  unfold lbind at 1 in H.
  destruct (match h with Some addr => if ehdr_get "e_entry" (slice f 0 64) <? addr then lfail (LElf InvalidEntryAddress) else lret tt | None => lret tt end r2 m)
    as [[r3 m3] o3] eqn:E3.
  assert (r3 = r2 /\ m3 = m) as (-> & ->).
  { destruct h as [hh|]; [destruct (_ <? hh)|]; inversion E3; subst; auto. }
  destruct o3 as [[]|e|q]; [|inversion H; subst; none|inversion H; subst; none].
  unfold lbind at 1 in H. unfold lpure at 1 in H.
  destruct (match off with Some k => ok_or (checked_add k (ehdr_get "e_entry" (slice f 0 64))) (LElf ElfOverflow) | None => Ok (ehdr_get "e_entry" (slice f 0 64)) end)
    as [ld|e|q]; [|inversion H; subst; none|inversion H; subst; none].
  rewrite lbind_lio in H.
  destruct (seek_start_cases r2 (ehdr_get "e_phoff" (slice f 0 64))) as [(r4 & E4 & Henv4 & _)|[E4 _]]; rewrite E4 in H.
  { inversion H; subst; none. }
  set (r4 := rd_step r2 (ehdr_get "e_phoff" (slice f 0 64))) in *.
  unfold lbind at 1 in H.
  destruct (read_phdrs (N.to_nat (ehdr_get "e_phnum" (slice f 0 64))) r4 m) as [[r5 m5] o5] eqn:E5.
  apply read_phdrs_spec in E5 as (-> & Henv5 & P).
  destruct P as [(-> & Htab)|(-> & _)]; [|inversion H; subst; none].
  change (rd_pos r4) with (ehdr_get "e_phoff" (slice f 0 64)) in Htab. change (rd_data r4) with f in Htab. rewrite ehdr_phoff, ehdr_phnum in Htab by exact Hin.
  change (rd_pos r4) with (ehdr_get "e_phoff" (slice f 0 64)) in H. change (rd_data r4) with f in H.
  rewrite ehdr_phoff, ehdr_phnum in H by exact Hin.
  unfold lbind at 1 in H.
  match type of H with context [load_phdrs bld be off ?l 0 PvhEntryIgnored r5 m] => set (phs := l) in H end.
  destruct (load_phdrs bld be off phs 0 PvhEntryIgnored r5 m) as [[r6 m6] o6] eqn:E6.
  assert (Henv : rd_same_env r r5).
  { eapply rd_same_env_trans; [|exact Henv5]. repeat split. }
  assert (Hq : map ph_of phs = phdrs_of f).
  { unfold phs, phdrs_of. rewrite map_map. apply map_ext_in. intros i Hi. apply in_seq in Hi.
    destruct Htab as [Htab|Htab]; [|lia]. rewrite ph_of_slice by lia. reflexivity. }
  apply load_phdrs_leaves in E6; [|now apply (env_wf r)|exact Hwm|now apply (reads_enough_env _ r)].
  rewrite (proj1 Henv) in E6. fold f in E6.
  rewrite Hq in E6.
  destruct o6 as [v|e|q]; inversion H; subst m' o; (eapply leaves_weaken; [|exact E6]).
  - intros _. now exists v.
  - intros (w & Hw'). discriminate.
  - intros (w & Hw'). discriminate.
Qed.

Lemma bz_load_leaves be off h r m r' m' o :
  wf_reader r -> wf_mem m = true -> reads_enough be r -> bz_load be off h r m = (r', m', o) ->
  exists k, (k = 123 \/ short_reads r) /\
    leaves m m' (exists v, o = Ok v) (stores (bz_load_addr (seen (rd_data r) k) off) (payload (rd_data r))).
Proof.
  intros Hwr Hwm Hen H. unfold bz_load in H. set (f := rd_data r) in *.
  assert (N0 : forall o1 : outcome lerror load_result, (forall v, o1 <> Ok v) -> exists k, (k = 123 \/ short_reads r) /\
    leaves m m (exists v, o1 = Ok v) (stores (bz_load_addr (seen f k) off) (payload f))).
  { intros o1 Ho. exists 123. split; [now left|]. apply leaves_none. intros (v & E). now apply Ho in E. }
  rewrite lbind_lio in H. destruct (seek_end_cases r) as [(r1 & E1 & Henv1 & _)|E1]; rewrite E1 in H.
  { inversion H; subst; apply N0; discriminate. }
  set (r1 := rd_step r (rd_len r)) in *. rewrite lbind_lio in H.
  destruct (seek_start_cases r1 0x1f1) as [(r2 & E2 & Henv2 & _)|[E2 _]]; rewrite E2 in H.
  { inversion H; subst; apply N0; discriminate. }
  set (r2 := rd_step r1 0x1f1) in *. rewrite lbind_lio in H.
  destruct (read_header_cases r2) as [(r3 & E3 & _)|(r3 & k & E3 & Henv3 & Hk)]; rewrite E3 in H.
  { inversion H; subst; apply N0; discriminate. }
  change (rd_data r2) with f in *. change (rd_pos r2) with 0x1f1 in *. change (rd_chunk r2) with (rd_chunk r) in Hk.
  assert (Hh : (let h := slice f 0x1f1 (N.min k 123) in h ++ zeros (123 - lenN h)) = header_got f k).
  { unfold header_got. cbv zeta. now rewrite part_slice. }
  rewrite Hh in H.
  rewrite hdr_header, hdr_version, hdr_loadflags, hdr_setup_sects, hdr_code32, land1 in H.
  set (g := seen f k) in *.
  assert (Hk' : k = 123 \/ short_reads r) by exact Hk.
  destruct (N.eqb_spec (bz_magic g) 0x53726448) as [Hmag|Hmag]; cbn [negb] in H.
  2:{ inversion H; subst; apply N0; discriminate. }
  destruct ((bz_version g <? 0x0200) || (bz_loadflags g mod 2 =? 0)) eqn:Evl.
  { inversion H; subst; apply N0; discriminate. }
  assert (Hgood : bz_header_good g).
  { apply orb_false_iff in Evl as [Ev El]. apply N.ltb_ge in Ev. apply N.eqb_neq in El.
    unfold bz_header_good. repeat (split; [assumption|]). pose proof (mod2_cases (bz_loadflags g)). lia. }
  match type of H with context [ok_or ?x (LBz BzOverflow)] => destruct x as [ss|] eqn:Ess end; cbn [ok_or] in H.
  2:{ rewrite lbind_err in H. inversion H; subst; apply N0; discriminate. }
  rewrite lbind_ok in H.
  assert (Es : ss = bz_setup_size f).
  { rewrite <- (seen_setup_size_good f k Hgood). fold g. unfold bz_setup_size.
    unfold checked_add in Ess. destruct (_ <? two64) in Ess; [|discriminate].
    unfold checked_mul in Ess. destruct (_ <? two64) in Ess; [|discriminate]. injection Ess as <-. lia. }
  subst ss.
  unfold checked_sub in H. destruct (N.leb_spec (bz_setup_size f) (rd_len r)) as [Hu|Hu]; cbn [ok_or] in H.
  2:{ rewrite lbind_err in H. inversion H; subst; apply N0; discriminate. }
  rewrite lbind_ok in H.
  destruct (match h with Some hh => _ | None => _ end).
  { inversion H; subst; apply N0; discriminate. }
  cbv zeta in H. fold (bz_load_addr g off) in H. rewrite lbind_lio in H.
  destruct (seek_start_cases r3 (bz_setup_size f)) as [(r4 & E4 & Henv4 & _)|[E4 _]]; rewrite E4 in H.
  { inversion H; subst; apply N0; discriminate. }
  set (r4 := rd_step r3 (bz_setup_size f)) in *.
  unfold lbind in H at 1.
  destruct (lcopy be (bz_load_addr g off) (rd_len r - bz_setup_size f) (LBz ReadBzImageCompressedKernel) r4 m) as [[r5 m5] o5] eqn:Ec.
  assert (Henv : rd_same_env r r4).
  { eapply rd_same_env_trans; [|apply rd_same_env_step]. eapply rd_same_env_trans; [|exact Henv3]. repeat split. }
  apply copy_leaves in Ec as (_ & _ & Hl); [|exact Hwm|exact (reads_enough_env _ _ _ Henv Hen)].
  rewrite (proj1 Henv) in Hl. change (rd_pos r4) with (bz_setup_size f) in Hl. fold f in Hl.
  assert (Epay : payload f = slice f (bz_setup_size f) (rd_len r - bz_setup_size f)) by (unfold payload; now rewrite part_slice).
  rewrite <- Epay in Hl.
  exists k. split; [exact Hk'|]. fold g.
  destruct o5 as [[]|e|q]; [|inversion H; subst; eapply leaves_weaken; [|exact Hl]; intros (v & E); discriminate
    |inversion H; subst; eapply leaves_weaken; [|exact Hl]; intros (v & E); discriminate].
  apply (leaves_weaken _ _ (@Ok lerror unit tt = Ok tt)); [reflexivity|].
  destruct (checked_add (bz_load_addr g off) (rd_len r - bz_setup_size f)); cbn [ok_or] in H.
  - rewrite lbind_ok in H. inversion H; subst. exact Hl.
  - rewrite lbind_err in H. inversion H; subst. exact Hl.
Qed.

Lemma pe_load_leaves a be off h r m r' m' o :
  wf_reader r -> wf_mem m = true -> reads_enough be r -> pe_load a be off h r m = (r', m', o) ->
  leaves m m' (exists v, o = Ok v) (stores (pe_load_addr a (rd_data r) off) (rd_data r)).
Proof.
  intros Hwr Hwm Hen H. unfold pe_load in H. set (f := rd_data r) in *.
  rewrite lbind_lio in H. destruct (seek_end_cases r) as [(r1 & E1 & Henv1 & _)|E1]; rewrite E1 in H.
  { inversion H; subst; none. }
  set (r1 := rd_step r (rd_len r)) in *. rewrite lbind_lio in H.
  destruct (seek_start_cases r1 0) as [(r2 & E2 & Henv2 & _)|[E2 _]]; rewrite E2 in H.
  { inversion H; subst; none. }
  set (r2 := rd_step r1 0) in *.
  rewrite lbind_lio in H. assert (Esz : size (image_header a) = 64) by (destruct a; reflexivity). rewrite Esz in H.
  destruct (read_exact_cases r2 64) as [(r3 & E3 & _)|[E3 Hlen]]; rewrite E3 in H.
  { inversion H; subst; none. }
  change (rd_data r2) with f in *. change (rd_pos r2) with 0 in *. change (0 + 64) with 64 in *.
  set (r3 := rd_step r2 64) in *.
  destruct (magic_ok a (slice f 0 64)); cbn [negb] in H; [|inversion H; subst; none].
  rewrite (text_offset_spec f Hlen a) in H. fold (pe_base off) in H.
  destruct (match off with Some k => negb (k mod 0x200000 =? 0) | None => false end); [inversion H; subst; none|].
  unfold checked_add in H at 1. fold (pe_load_addr a f off) in H.
  destruct (pe_load_addr a f off <? two64); cbn [ok_or] in H.
  2:{ rewrite lbind_err in H. inversion H; subst; none. }
  rewrite lbind_ok in H. rewrite lbind_lio in H.
  destruct (seek_start_cases r3 0) as [(r4 & E4 & _)|[E4 _]]; rewrite E4 in H.
  { inversion H; subst; none. }
  set (r4 := rd_step r3 0) in *.
  unfold lbind in H at 1.
  destruct (lcopy be (pe_load_addr a f off) (rd_len r) (LPe PeReadKernelImage) r4 m) as [[r5 m5] o5] eqn:Ec.
  apply copy_leaves in Ec as (_ & _ & Hl); [|exact Hwm|exact Hen].
  change (rd_data r4) with f in Hl. change (rd_pos r4) with 0 in Hl. unfold rd_len in Hl. fold f in Hl. rewrite slice_full in Hl.
  destruct o5 as [[]|e|q]; [|inversion H; subst; eapply leaves_weaken; [|exact Hl]; intros (v & E); discriminate
    |inversion H; subst; eapply leaves_weaken; [|exact Hl]; intros (v & E); discriminate].
  apply (leaves_weaken _ _ (@Ok lerror unit tt = Ok tt)); [reflexivity|].
  destruct (checked_add (pe_load_addr a f off) (rd_len r)); cbn [ok_or] in H.
  - rewrite lbind_ok in H. inversion H; subst. exact Hl.
  - rewrite lbind_err in H. inversion H; subst. exact Hl.
Qed.

Lemma load_dtb_leaves be a r m r' m' o :
  wf_reader r -> wf_mem m = true -> reads_enough be r -> load_dtb be a r m = (r', m', o) ->
  leaves m m' (exists v, o = Ok v) (stores a (rd_data r)).
Proof.
  intros Hwr Hwm Hen H. unfold load_dtb in H. set (f := rd_data r) in *.
  rewrite lbind_lio in H. destruct (seek_end_cases r) as [(r1 & E1 & Henv1 & _)|E1]; rewrite E1 in H.
  { inversion H; subst; none. }
  set (r1 := rd_step r (rd_len r)) in *.
  destruct (0x200000 <? rd_len r); [inversion H; subst; none|]. rewrite lbind_lio in H.
  destruct (seek_start_cases r1 0) as [(r2 & E2 & Henv2 & _)|[E2 _]]; rewrite E2 in H.
  { inversion H; subst; none. }
  set (r2 := rd_step r1 0) in *.
  apply copy_leaves in H as (_ & _ & Hl); [|exact Hwm|exact Hen].
  change (rd_data r2) with f in Hl. change (rd_pos r2) with 0 in Hl. unfold rd_len in Hl. fold f in Hl. rewrite slice_full in Hl.
  eapply leaves_weaken; [|exact Hl]. now intros ([] & E).
Qed.

(** ** The writers *)
Lemma write_leaves be m data a m' o : wf_mem m = true -> write_slice be m data a = (m', o) ->
  regions m' = regions m /\ leaves m m' (o = Ok tt) (stores a data).
Proof.
  intros Hw H. destruct (write_slice_made _ _ _ _ _ _ Hw H) as (l & rest & R & M & E & O). split; [exact R|]. exists l, rest. auto.
Qed.
Lemma load_cmdline_leaves bld be m addr c m' o : wf_mem m = true -> load_cmdline bld be m addr c = (m', o) ->
  leaves m m' (o = Ok tt) (all_stores (match as_cstring c with Ok s => [(addr, s ++ [x00])] | _ => [] end)).
Proof.
  intros Hw H. unfold load_cmdline in H. destruct (as_cstring c) as [s|e|p].
  2:{ inversion H; subst. now apply leaves_none. }
  2:{ inversion H; subst. now apply leaves_none. }
  cbv zeta in H. destruct (usub bld (lenN (bytes_with_nul s)) 1) as [d|e|p].
  2:{ inversion H; subst; none. }
  2:{ inversion H; subst; none. }
  destruct (checked_add addr d) as [e|]; [|inversion H; subst; none].
  destruct (last_addr m <? e); [inversion H; subst; none|].
  destruct (write_slice be m (bytes_with_nul s) addr) as [m1 o1] eqn:E.
  apply write_leaves in E as (_ & Hl); [|exact Hw]. unfold all_stores. cbn [flat_map]. rewrite piece_stores_eq, app_nil_r.
  destruct o1 as [[]|x|x]; inversion H; subst; (eapply leaves_weaken; [|exact Hl]); auto; discriminate.
Qed.
Lemma check_and_write_leaves be m a bs e1 e2 m' o : wf_mem m = true -> check_and_write be m a bs e1 e2 = (m', o) ->
  regions m' = regions m /\ leaves m m' (o = Ok tt) (stores a bs).
Proof.
  intros Hw H. unfold check_and_write in H. destruct (checked_offset m a (lenN bs)); [|inversion H; subst; split; [reflexivity|none]].
  destruct (write_slice be m bs a) as [m1 o1] eqn:E. apply write_leaves in E as (Hr & Hl); [|exact Hw].
  destruct o1 as [[]|x|x]; inversion H; subst; (split; [exact Hr|]); (eapply leaves_weaken; [|exact Hl]); auto; discriminate.
Qed.
Lemma pvh_leaves be p m m' o : wf_mem m = true -> pvh_write_bootparams be p m = (m', o) ->
  leaves m m' (o = Ok tt) (all_stores (pvh_areas p)).
Proof.
  intros Hw H. unfold pvh_write_bootparams in H. unfold pvh_areas.
  destruct (sections p) as [v|]; [|inversion H; subst; none].
  destruct (sections_start p) as [a|]; [|inversion H; subst; none].
  unfold all_stores. rewrite !flat_map_app. cbn [flat_map]. rewrite !app_nil_r, !piece_stores_eq.
  match goal with |- context [flat_map piece_stores ?x] => set (tail := x) end.
  destruct (check_and_write be m a v (BPvh MemmapTablePastRamEnd) (BPvh MemmapTableSetup)) as [m1 o1] eqn:E1.
  apply check_and_write_leaves in E1 as (R1 & L1); [|exact Hw].
  destruct o1 as [[]|e|q]; [|inversion H; subst; eapply leaves_stop; [discriminate|exact L1]|inversion H; subst; eapply leaves_stop; [discriminate|exact L1]].
  eapply (leaves_seq _ _ _ (@Ok berror unit tt = Ok tt)); [reflexivity|exact L1|].
  assert (Hw1 : wf_mem m1 = true) by now rewrite (wf_mem_regions _ _ R1).
  destruct (check_and_write be m1 (header_start p) (header p) (BPvh StartInfoPastRamEnd) (BPvh StartInfoSetup)) as [m2 o2] eqn:E2.
  apply check_and_write_leaves in E2 as (R2 & L2); [|exact Hw1].
  destruct o2 as [[]|e|q]; [|inversion H; subst; eapply leaves_stop; [discriminate|exact L2]|inversion H; subst; eapply leaves_stop; [discriminate|exact L2]].
  eapply (leaves_seq _ _ _ (@Ok berror unit tt = Ok tt)); [reflexivity|exact L2|]. subst tail.
  assert (Hw2 : wf_mem m2 = true) by now rewrite (wf_mem_regions _ _ R2).
  destruct (modules p) as [w|].
  2:{ inversion H; subst. apply leaves_none. intros _. now destruct (modules_start p). }
  destruct (modules_start p) as [b|]; [|inversion H; subst; now apply leaves_none].
  destruct (write_slice be m2 w b) as [m3 o3] eqn:E3. apply write_leaves in E3 as (_ & L3); [|exact Hw2].
  cbn [flat_map]. rewrite app_nil_r, piece_stores_eq.
  destruct o3 as [[]|x|x]; inversion H; subst; (eapply leaves_weaken; [|exact L3]); auto; discriminate.
Qed.

Lemma perform_leaves bld be t m m' x : wf_mem m = true -> task_typed t -> unbroken be t ->
  perform bld be t m = (m', x) -> exists pieces, plan t pieces /\ leaves m m' (success x) (all_stores pieces).
Proof.
  intros Hw Ht Hu H. unfold success. destruct t; cbn [perform task_typed unbroken plan] in *.
  - destruct (elf_load bld be off highmem image m) as [[r' m1] o] eqn:E. inversion H; subst m1 x. eexists. split; [reflexivity|].
    eapply leaves_weaken; [|eapply elf_load_leaves; [| | |exact E]; [exact Ht|exact Hw|now apply unbroken_enough]].
    intros [(res & Hx)|[Hx|Hx]]; inversion Hx. eauto.
  - destruct (bz_load be off highmem image m) as [[r' m1] o] eqn:E. inversion H; subst m1 x. destruct Ht as (T1 & T2 & T3).
    destruct (bz_load_leaves _ _ _ _ _ _ _ _ T1 Hw (unbroken_enough _ _ Hu) E) as (k & Hk & Hl).
    eexists. split; [exists k; split; [exact Hk|reflexivity]|]. unfold all_stores. cbn [flat_map]. rewrite app_nil_r, piece_stores_eq.
    eapply leaves_weaken; [|exact Hl]. intros [(res & Hx)|[Hx|Hx]]; inversion Hx. eauto.
  - destruct (pe_load a be off highmem image m) as [[r' m1] o] eqn:E. inversion H; subst m1 x. eexists. split; [reflexivity|].
    unfold all_stores. cbn [flat_map]. rewrite app_nil_r, piece_stores_eq.
    eapply leaves_weaken; [|eapply pe_load_leaves; [| | |exact E]; [exact Ht|exact Hw|now apply unbroken_enough]].
    intros [(res & Hx)|[Hx|Hx]]; inversion Hx. eauto.
  - destruct (load_dtb be addr image m) as [[r' m1] o] eqn:E. inversion H; subst m1 x. eexists. split; [reflexivity|].
    unfold all_stores. cbn [flat_map]. rewrite app_nil_r, piece_stores_eq.
    eapply leaves_weaken; [|eapply load_dtb_leaves; [| | |exact E]; [exact Ht|exact Hw|now apply unbroken_enough]].
    intros [(res & Hx)|[Hx|Hx]]; inversion Hx. eauto.
  - destruct (load_cmdline bld be m addr c) as [m1 o] eqn:E. inversion H; subst m1 x. eexists. split; [reflexivity|].
    eapply leaves_weaken; [|exact (load_cmdline_leaves _ _ _ _ _ _ _ Hw E)]. intros [(res & Hx)|[Hx|Hx]]; now inversion Hx.
  - destruct (linux_write_bootparams be p m) as [m1 o] eqn:E. inversion H; subst m1 x. eexists. split; [reflexivity|].
    apply check_and_write_leaves in E as (_ & Hl); [|exact Hw]. unfold all_stores. cbn [flat_map]. rewrite app_nil_r, piece_stores_eq.
    eapply leaves_weaken; [|exact Hl]. intros [(res & Hx)|[Hx|Hx]]; now inversion Hx.
  - destruct (fdt_write_bootparams be p m) as [m1 o] eqn:E. inversion H; subst m1 x. eexists. split; [reflexivity|].
    apply check_and_write_leaves in E as (_ & Hl); [|exact Hw]. unfold all_stores. cbn [flat_map]. rewrite app_nil_r, piece_stores_eq.
    eapply leaves_weaken; [|exact Hl]. intros [(res & Hx)|[Hx|Hx]]; now inversion Hx.
  - destruct (pvh_write_bootparams be p m) as [m1 o] eqn:E. inversion H; subst m1 x. eexists. split; [reflexivity|].
    eapply leaves_weaken; [|exact (pvh_leaves _ _ _ _ _ Hw E)]. intros [(res & Hx)|[Hx|Hx]]; now inversion Hx.
Qed.
