(** Lemmas about conversations with an arbitrary source. *)
From Verif Require Import Base Base_proofs Io Mem SpecMem Mem_proofs Layout SpecFile File_proofs Text Cmdline Loader Elf SpecElf
  Align_proofs Elf_proofs Elf_proofs2 BzImage SpecBz Bz_proofs Pe SpecPe Pe_proofs Source SpecTalk.

Section Talk.
Context {S : Type} (src : source S).
Hypothesis Hpl : plausible src.
Hypothesis Hro : roomy src.

Lemma talk_app s e1 s1 e2 s2 : talk src s e1 s1 -> talk src s1 e2 s2 -> talk src s (e1 ++ e2) s2.
Proof. induction 1 as [|s e s0 evs s' A T IH]; intros H; [exact H|]. exact (talk_cons _ _ _ _ _ _ A (IH H)). Qed.
Lemma talk_one s e s1 : answers src s e s1 -> talk src s [e] s1.
Proof. intros A. exact (talk_cons _ _ _ _ _ _ A (talk_nil _ _)). Qed.

Lemma t_end s got s1 evs s' : so_seek_end src s = (s1, got) -> talk src s1 evs s' -> talk src s (SoughtEnd got :: evs) s'.
Proof. intros A. now apply talk_cons. Qed.
Lemma t_to s p got s1 evs s' : so_seek_start src s p = (s1, got) -> talk src s1 evs s' -> talk src s (SoughtTo p got :: evs) s'.
Proof. intros A. now apply talk_cons. Qed.
Lemma t_by s d got s1 evs s' : so_seek_cur src s d = (s1, got) -> talk src s1 evs s' -> talk src s (SoughtBy d got :: evs) s'.
Proof. intros A. now apply talk_cons. Qed.
Lemma t_all s n got s1 evs s' : so_read_exact src s n = (s1, got) -> talk src s1 evs s' -> talk src s (ReadAll n got :: evs) s'.
Proof. intros A. now apply talk_cons. Qed.
Lemma t_some s n got s1 evs s' : so_read_volatile src s n = (s1, got) -> talk src s1 evs s' -> talk src s (ReadSome n got :: evs) s'.
Proof. intros A. now apply talk_cons. Qed.
Lemma t_guest s n got s1 evs s' : so_read_retry src s n = (s1, got) -> talk src s1 evs s' -> talk src s (ReadGuest n got :: evs) s'.
Proof. intros A. now apply talk_cons. Qed.

(** ** Steps of the loaders *)
Lemma gbind_gio {E A B} (op : S -> S * option A) (e : E) (f : A -> @G S E B) s m s' m' o :
  gbind (gio op e) f s m = (s', m', o) ->
  (op s = (s', None) /\ m' = m /\ o = Err e) \/ (exists s1 a, op s = (s1, Some a) /\ f a s1 m = (s', m', o)).
Proof.
  unfold gbind, gio. destruct (op s) as [s1 [a|]]; intros H.
  - right. exists s1, a. auto.
  - left. injection H as <- <- <-. auto.
Qed.
Lemma gbind_pure_ok {E A B} (a : A) (f : A -> @G S E B) s m : gbind (gpure (Ok a)) f s m = f a s m.
Proof. reflexivity. Qed.
Lemma gbind_pure_err {E A B} (e : E) (f : A -> @G S E B) s m : gbind (gpure (Err e)) f s m = (s, m, Err e).
Proof. reflexivity. Qed.

(** ** The copy *)
Lemma landed_heard be a n m evs : proper be m a n evs -> Forall (fun e => ~ bad_answer be e) evs -> forall f x,
  overlay f (landed be a evs) x = put f a (heard evs) x.
Proof.
  revert a n. induction evs as [|e evs IH]; intros a n Hp Hg f x.
  { cbn. now rewrite put_nil. }
  destruct e as [got|p got|d got|k got|k got|k got]; try contradiction.
  cbn [proper] in Hp. destruct Hp as (Hk & Hb & _ & Hp). inversion Hg as [|e l Hg1 Hg2]; subst.
  destruct got as [bs|]; [|cbn in Hg1; tauto]. destruct Hp as (Hl & _ & Hp).
  cbn [landed heard]. unfold overlay. cbn [fold_left fst snd]. fold (overlay (put f a bs) (landed be (a + moved be k bs) evs)).
  rewrite (IH _ _ Hp Hg2). replace (moved be k bs) with (lenN bs); [apply put_app|].
  destruct be; cbn in Hg1 |- *; lia.
Qed.

Lemma gread_loop_talk be fuel : forall s m cur left total s' m' o,
  wf_mem m = true -> left < N.of_nat fuel -> (total = 0 \/ 0 < left) ->
  gread_loop src be fuel s m cur left total = (s', m', o) ->
  exists evs, talk src s evs s' /\ proper be m cur left evs /\
    regions m' = regions m /\ (forall x, gm_byte m' x = overlay (gm_byte m) (landed be cur evs) x) /\
    ((o = Ok (total + left) /\ range_backed m cur left /\ (left = 0 -> backed m cur) /\ Forall (fun e => ~ bad_answer be e) evs /\ lenN (heard evs) = left) \/
     ((o = Err tt \/ exists k, o = Ok k /\ k < total + left) /\ (~ range_backed m cur left \/ (left = 0 /\ ~ backed m cur) \/ Exists (bad_answer be) evs))).
Proof.
  induction fuel as [|fuel IH]; intros s m cur left total s' m' o Hw Hf Ht H; [lia|].
  cbn [gread_loop] in H.
  destruct (find_region m cur) as [rg|] eqn:Ef.
  2:{ injection H as <- <- <-. apply find_region_none in Ef. exists []. split; [apply talk_nil|]. split; [exact I|]. split; [reflexivity|].
      split; [reflexivity|]. right.
      assert (Hwhy : ~ range_backed m cur left \/ (left = 0 /\ ~ backed m cur) \/ Exists (bad_answer be) []).
      { destruct (N.eq_dec left 0) as [->|Hn]; [right; left; auto|]. left. intros Hr. apply Ef, Hr; lia. }
      split; [|exact Hwhy]. destruct be; [|now left]. destruct (N.eqb_spec total 0); [now left|]. right. exists total. split; [reflexivity|lia]. }
  apply find_region_some in Ef as (Hin & Hr1 & Hr2).
  destruct (wf_region m rg Hw Hin) as [Hlen Hend].
  set (n := N.min (r_base rg + r_len rg - cur) left) in *.
  assert (Hrb : range_backed m cur n).
  { intros x Hx1 Hx2. exists rg. split; [exact Hin|]. lia. }
  assert (Hbk : backed m cur) by (exists rg; split; [exact Hin|lia]).
  assert (Hall : n = left \/ exists r, In r (regions m) /\ cur + n = r_base r + r_len r).
  { destruct (N.le_gt_cases left (r_base rg + r_len rg - cur)); [left|right; exists rg; split; [exact Hin|]]; lia. }
  destruct (so_read_retry src s n) as [s1 [bs|]] eqn:Er.
  2:{ injection H as <- <- <-. exists [ReadGuest n None]. split; [exact (t_guest _ _ _ _ _ _ Er (talk_nil _ _))|].
      split; [cbn; split; [lia|split; [exact Hrb|split; [exact Hall|reflexivity]]]|]. split; [reflexivity|]. split; [reflexivity|].
      right. split; [now left|]. right. right. apply Exists_cons_hd. exact I. }
  assert (Hk : lenN bs <= n) by exact (proj1 (proj2 (proj2 Hpl)) _ _ _ _ Er).
  fold (moved be n bs) in H. set (adv := moved be n bs) in *.
  assert (Hadv : adv <= n /\ lenN bs <= adv) by (unfold adv, moved; destruct be; lia).
  assert (Hone : forall x, gm_byte (mem_store m cur bs) x = overlay (gm_byte m) (landed be cur [ReadGuest n (Some bs)]) x).
  { intros x. cbn. apply store_put. }
  assert (Hpr : proper be m cur left [ReadGuest n (Some bs)]).
  { cbn. split; [lia|]. split; [exact Hrb|]. split; [exact Hall|]. split; [exact Hk|]. split; [reflexivity|exact I]. }
  destruct (N.eqb_spec adv 0) as [E0|E0].
  { injection H as <- <- <-. exists [ReadGuest n (Some bs)]. split; [exact (t_guest _ _ _ _ _ _ Er (talk_nil _ _))|]. split; [exact Hpr|].
    split; [reflexivity|]. split; [exact Hone|].
    assert (lenN bs = 0) by lia. assert (bs = []) as -> by now apply lenN_zero.
    destruct (N.eq_dec left 0) as [->|Hl].
    - left. split; [f_equal; lia|]. split; [intros x ? ?; lia|]. split; [auto|]. split; [|reflexivity].
      constructor; [|constructor]. cbn. change (lenN (@nil byte)) with 0. destruct be; lia.
    - right. split; [right; exists total; split; [reflexivity|lia]|]. right. right. apply Exists_cons_hd. cbn. unfold adv, moved in E0.
      destruct be; [split; [lia|reflexivity]|lia]. }
  destruct (N.eqb_spec adv left) as [E1|E1].
  { injection H as <- <- <-. exists [ReadGuest n (Some bs)]. split; [exact (t_guest _ _ _ _ _ _ Er (talk_nil _ _))|]. split; [exact Hpr|].
    split; [reflexivity|]. split; [exact Hone|].
    destruct (N.eq_dec (lenN bs) left) as [El|El].
    - left. split; [now rewrite El|]. split; [replace left with n by lia; exact Hrb|]. split; [auto|]. split.
      + constructor; [|constructor]. cbn. destruct be; [|lia]. intros [? ->]. change (lenN (@nil byte)) with 0 in El. lia.
      + cbn. now rewrite app_nil_r.
    - right. split; [right; exists (total + lenN bs); split; [reflexivity|lia]|]. right. right. apply Exists_cons_hd. cbn.
      unfold adv, moved in E1. destruct be; [congruence|lia]. }
  unfold next_addr in H. replace (cur + adv <? two64) with true in H by lia.
  apply IH in H; [|exact Hw|lia|lia].
  destruct H as (evs & T & P & R & M & O). exists (ReadGuest n (Some bs) :: evs).
  split; [exact (t_guest _ _ _ _ _ _ Er T)|].
  assert (Hpr' : proper be m (cur + adv) (left - adv) evs).
  { revert P. clear. generalize (cur + adv) (left - adv). induction evs as [|e evs IHe]; intros a l P; [exact I|].
    destruct e; try contradiction. cbn in P |- *. destruct P as (P1 & P2 & P2b & P3). split; [exact P1|]. split; [exact P2|]. split; [exact P2b|].
    destruct got; [|exact P3]. destruct P3 as (P3 & P3b & P4). split; [exact P3|]. split; [exact P3b|]. now apply IHe. }
  split; [cbn; split; [lia|split; [exact Hrb|split; [exact Hall|split; [exact Hk|split; [fold adv; lia|exact Hpr']]]]]|].
  split; [exact R|].
  split.
  { intros x. rewrite M. cbn [landed]. unfold overlay at 2. cbn [fold_left fst snd].
    fold (overlay (put (gm_byte m) cur bs) (landed be (cur + moved be n bs) evs)). apply overlay_ext. intros y. cbn. apply store_put. }
  assert (Hb1 : range_backed (mem_store m cur bs) (cur + adv) (left - adv) <-> range_backed m (cur + adv) (left - adv)).
  { apply range_backed_regions. reflexivity. }
  assert (Hok : ~ bad_answer be (ReadGuest n (Some bs)) \/ bad_answer be (ReadGuest n (Some bs)) /\ lenN bs < adv).
  { cbn. unfold adv, moved in *. destruct be.
    - left. intros [_ ->]. apply E0. reflexivity.
    - destruct (N.lt_ge_cases (lenN bs) n); [right; auto|left; lia]. }
  destruct O as [(-> & O1 & O2 & O3 & O4)|(O1 & O2)].
  - destruct Hok as [Hok|[Hbad Hlt]].
    + assert (lenN bs = adv). { cbn in Hok. unfold adv, moved in *. destruct be; lia. }
      left. split; [f_equal; lia|]. split; [|split; [auto|split]].
      * intros x Hx1 Hx2. destruct (N.ltb_spec x (cur + adv)); [apply Hrb; lia|]. apply Hb1; [exact O1|lia|lia].
      * constructor; [exact Hok|exact O3].
      * cbn [heard]. rewrite lenN_app. lia.
    + right. split; [right; eexists; split; [reflexivity|lia]|]. right. right. now apply Exists_cons_hd.
  - right. split.
    + destruct O1 as [O1|(k & O1 & O1')]; [now left|right; exists k; split; [exact O1|lia]].
    + destruct O2 as [O2|[[O2 _]|O2]].
      * left. intros Hr. apply O2, Hb1. intros x Hx1 Hx2. apply Hr; lia.
      * lia.
      * right. right. now apply Exists_cons_tl.
Qed.

Lemma gcopy_talk be a n e s m s' m' o : wf_mem m = true -> n < 2 ^ 64 ->
  gcopy src be a n e s m = (s', m', o) ->
  exists evs, talk src s evs s' /\
    ((o = Ok tt /\ copied be m a n evs m') \/ (o = Err e /\ not_copied be m a n evs m')).
Proof.
  intros Hw Hn H. unfold gcopy in H. destruct (gread_exact_volatile_from src be s m a n) as [[s1 m1] o1] eqn:E.
  assert (Z : (be = GetSlices /\ n = 0 /\ (s1, m1, o1) = (s, m, Ok tt)) \/
    ((be = GetSlices -> n <> 0) /\ exists o2, gread_loop src be (Datatypes.S (so_len src s + length (regions m))) s m a n 0 = (s1, m1, o2) /\
      o1 = match o2 with Ok k => if k =? n then Ok tt else Err tt | Err e => Err e | Panic p => Panic p end)).
  { unfold gread_exact_volatile_from in E. destruct be; [right|].
    - split; [discriminate|]. destruct (gread_loop _ _ _ _ _ _ _ _) as [[s2 m2] o2]. exists o2. destruct o2; injection E as <- <- <-; auto.
    - destruct (N.eq_dec n 0) as [->|Hz]; [left; now injection E as <- <- <-|right]. split; [auto|].
      destruct n as [|pn]; [congruence|]. destruct (gread_loop _ _ _ _ _ _ _ _) as [[s2 m2] o2]. exists o2. destruct o2; injection E as <- <- <-; auto. }
  destruct Z as [(-> & -> & Ez)|(Hz & o2 & El & Eo)].
  { injection Ez as -> -> ->. injection H as <- <- <-. exists []. split; [apply talk_nil|]. left. split; [reflexivity|].
    split; [exact I|]. split; [split; [intros x ? ?; lia|discriminate]|]. split; [constructor|]. split; [reflexivity|].
    split; [reflexivity|]. intros x. cbn. now rewrite put_nil. }
  apply gread_loop_talk in El; [|exact Hw| |now left].
  2:{ specialize (Hro s). lia. }
  destruct El as (evs & T & P & R & M & O). exists evs.
  assert (s1 = s' /\ m1 = m') as (<- & <-) by (destruct o1; injection H as <- <- _; auto).
  split; [exact T|]. destruct O as [(Hok & O1 & O2 & O3 & O4)|(O1 & O2)].
  - left. subst o2. rewrite N.add_0_l, N.eqb_refl in Eo. subst o1. split; [now injection H as <-|].
    split; [exact P|]. split; [split; [exact O1|auto]|]. split; [exact O3|]. split; [exact O4|]. split; [exact R|].
    intros x. rewrite M. rewrite (landed_heard be a n m); [reflexivity|exact P|exact O3].
  - right. assert (o1 = Err tt) as ->.
    { rewrite Eo. destruct O1 as [->|(k & -> & Hk)]; [reflexivity|]. replace (k =? n) with false by lia. reflexivity. }
    split; [now injection H as <-|]. split; [exact P|]. split; [|split; [exact R|exact M]].
    destruct O2 as [O2|[(O2 & O3)|O2]]; [left|left|right; exact O2].
    + intros [Hd _]. auto.
    + subst n. intros [_ Hd]. apply O3, Hd; [reflexivity|]. destruct be; [reflexivity|]. exfalso. now apply Hz.
Qed.

(** ** Device tree blobs *)
Lemma gload_dtb_talk be addr s m s' m' o : wf_mem m = true -> gload_dtb src be addr s m = (s', m', o) ->
  exists evs, talk src s evs s' /\ dtb_talk be addr m evs m' o.
Proof.
  intros Hw H. unfold gload_dtb in H.
  apply gbind_gio in H as [(E1 & -> & ->)|(s1 & n & E1 & H)].
  { exists [SoughtEnd None]. split; [exact (t_end _ _ _ _ _ E1 (talk_nil _ _))|constructor]. }
  change 0x200000 with (2 * 1024 * 1024) in H. destruct (N.ltb_spec (2 * 1024 * 1024) n) as [Hb|Hb].
  { injection H as <- <- <-. exists [SoughtEnd (Some n)]. split; [exact (t_end _ _ _ _ _ E1 (talk_nil _ _))|now constructor]. }
  apply gbind_gio in H as [(E2 & -> & ->)|(s2 & q & E2 & H)].
  { exists [SoughtEnd (Some n); SoughtTo 0 None]. split; [exact (t_end _ _ _ _ _ E1 (t_to _ _ _ _ _ _ E2 (talk_nil _ _)))|now constructor]. }
  apply gcopy_talk in H; [|exact Hw|exact (proj2 (proj2 (proj2 Hpl)) _ _ _ E1)].
  destruct H as (evs & T & H). exists (SoughtEnd (Some n) :: SoughtTo 0 (Some q) :: evs).
  split; [exact (t_end _ _ _ _ _ E1 (t_to _ _ _ _ _ _ E2 T))|].
  destruct H as [(-> & H)|(-> & H)]; now constructor.
Qed.

(** ** PE images *)
Lemma slice64 (h : bytes) : lenN h = 64 -> slice h 0 64 = h.
Proof. intros H. rewrite <- H. apply slice_full. Qed.

Lemma copied_bound be m a n evs m' : wf_mem m = true -> a < 2 ^ 64 -> copied be m a n evs m' -> a + n < 2 ^ 64.
Proof.
  intros Hw Ha (_ & (Hd & _) & _). destruct (N.eq_dec n 0) as [->|Hn]; [now rewrite N.add_0_r|].
  apply (range_backed_bound m); [exact Hw|lia|exact Hd].
Qed.

Lemma gpe_load_talk a be off highmem s m s' m' o : wf_mem m = true -> gpe_load src a be off highmem s m = (s', m', o) ->
  exists evs, talk src s evs s' /\ pe_talk a be off m evs m' o.
Proof.
  intros Hw H. unfold gpe_load in H.
  apply gbind_gio in H as [(E1 & -> & ->)|(s1 & n & E1 & H)].
  { exists [SoughtEnd None]. split; [exact (t_end _ _ _ _ _ E1 (talk_nil _ _))|constructor]. }
  apply gbind_gio in H as [(E2 & -> & ->)|(s2 & q & E2 & H)].
  { exists [SoughtEnd (Some n); SoughtTo 0 None]. split; [exact (t_end _ _ _ _ _ E1 (t_to _ _ _ _ _ _ E2 (talk_nil _ _)))|now constructor]. }
  replace (size (image_header a)) with 64 in H by (destruct a; reflexivity).
  apply gbind_gio in H as [(E3 & -> & ->)|(s3 & h & E3 & H)].
  { exists [SoughtEnd (Some n); SoughtTo 0 (Some q); ReadAll 64 None].
    split; [exact (t_end _ _ _ _ _ E1 (t_to _ _ _ _ _ _ E2 (t_all _ _ _ _ _ _ E3 (talk_nil _ _))))|now constructor]. }
  assert (Hl : lenN h = 64) by exact (proj1 Hpl _ _ _ _ E3).
  assert (T3 : talk src s [SoughtEnd (Some n); SoughtTo 0 (Some q); ReadAll 64 (Some h)] s3)
    by exact (t_end _ _ _ _ _ E1 (t_to _ _ _ _ _ _ E2 (t_all _ _ _ _ _ _ E3 (talk_nil _ _)))).
  assert (Hbad : forall e, pe_problem a h off e -> (s3, m, Err (LPe e)) = (s', m', o) ->
    exists evs, talk src s evs s' /\ pe_talk a be off m evs m' o).
  { intros e He Ee. injection Ee as <- <- <-. eexists. split; [exact T3|]. now apply pk_bad. }
  assert (Hle : 64 <= lenN h) by lia.
  assert (Em0 : magic_ok a h = magic_ok a (slice h 0 64)) by now rewrite slice64. rewrite Em0 in H.
  assert (Et0 : text_offset a h = pe_text_offset a h) by now rewrite <- (text_offset_spec h Hle a), slice64. rewrite Et0 in H.
  destruct (magic_ok a (slice h 0 64)) eqn:Em; cbn [negb] in H.
  2:{ apply (Hbad _ (pp_magic a h off Hle ltac:(rewrite <- magic_ok_spec by assumption; congruence)) H). }
  apply magic_ok_spec in Em; [|assumption].
  fold (pe_base off) in H.
  assert (Ha : (match off with Some k => negb (k mod 0x200000 =? 0) | None => false end = true /\ pe_base off mod (2 * 1024 * 1024) <> 0) \/
               (match off with Some k => negb (k mod 0x200000 =? 0) | None => false end = false /\ pe_base off mod (2 * 1024 * 1024) = 0)).
  { change (2 * 1024 * 1024) with 0x200000. destruct off as [k|]; cbn [pe_base]; [|right; auto].
    destruct (N.eqb_spec (k mod 0x200000) 0); cbn; [right|left]; auto. }
  destruct Ha as [[Ea Ha]|[Ea Ha]]; rewrite Ea in H.
  { exact (Hbad _ (pp_align _ _ _ Hle Em Ha) H). }
  unfold checked_add in H at 1. fold (pe_load_addr a h off) in H.
  destruct (N.ltb_spec (pe_load_addr a h off) two64) as [Hlt|Hge]; cbn [ok_or] in H.
  2:{ rewrite gbind_pure_err in H. exact (Hbad _ (pp_over _ _ _ Hle Em Ha Hge) H). }
  rewrite gbind_pure_ok in H. assert (Hgood : pe_good a h off) by (unfold pe_good; auto).
  apply gbind_gio in H as [(E4 & -> & ->)|(s4 & q2 & E4 & H)].
  { eexists. split; [exact (talk_app _ _ _ _ _ T3 (t_to _ _ _ _ _ _ E4 (talk_nil _ _)))|]. now apply pk_no_rewind. }
  unfold gbind at 1 in H. destruct (gcopy src be (pe_load_addr a h off) n (LPe PeReadKernelImage) s4 m) as [[s5 m5] o5] eqn:Ec.
  apply gcopy_talk in Ec; [|exact Hw|exact (proj2 (proj2 (proj2 Hpl)) _ _ _ E1)].
  destruct Ec as (evs & T & [(-> & C)|(-> & C)]).
  - assert (Hb : pe_load_addr a h off + n < 2 ^ 64) by exact (copied_bound _ _ _ _ _ _ Hw Hlt C).
    rewrite checked_add_lt in H by exact Hb. cbn [ok_or] in H. rewrite gbind_pure_ok in H. injection H as <- <- <-.
    eexists. split; [exact (talk_app _ _ _ _ _ T3 (t_to _ _ _ _ _ _ E4 T))|]. now apply pk_copied.
  - injection H as <- <- <-. eexists. split; [exact (talk_app _ _ _ _ _ T3 (t_to _ _ _ _ _ _ E4 T))|]. now apply pk_not_copied.
Qed.

(** ** bzImages *)
Lemma patch_filled bs : lenN bs <= 123 -> patch (default_of setup_header) 0 bs = filled bs.
Proof.
  intros Hk. unfold patch, filled. rewrite slice_zero. cbn [app]. f_equal. change (default_of setup_header) with (zeros 123). rewrite N.add_0_l, lenN_zeros.
  apply list_ext. intros i. destruct (Nat.lt_ge_cases i (N.to_nat (123 - lenN bs))) as [Hi|Hi].
  - replace i with (N.to_nat (N.of_nat i)) by lia. rewrite nth_error_slice by lia. unfold zeros.
    rewrite !nth_error_repeat by lia. reflexivity.
  - rewrite !(proj2 (nth_error_None _ _)); [reflexivity| |].
    + unfold zeros. rewrite repeat_length. lia.
    + pose proof (lenN_slice (zeros 123) (lenN bs) 123) as Hs. rewrite lenN_zeros in Hs. unfold lenN in *. lia.
Qed.
Lemma as_file_got bs : lenN bs <= 123 -> header_got (as_file bs) (lenN bs) = filled bs.
Proof.
  intros H. unfold header_got, filled. cbv zeta. assert (E : part (as_file bs) 0x1f1 (N.min (lenN bs) 123) = bs).
  { rewrite N.min_l by lia. rewrite part_slice. unfold as_file. rewrite slice_app_r by (rewrite lenN_zeros; lia). rewrite lenN_zeros.
    rewrite N.sub_diag. apply slice_full. }
  now rewrite E.
Qed.
Lemma as_file_seen bs : seen (as_file bs) (lenN bs) = as_file bs.
Proof.
  unfold seen. rewrite part_slice. replace (0x1f1 + lenN bs) with (lenN (as_file bs)); [apply slice_full|].
  unfold as_file. rewrite lenN_app, lenN_zeros. reflexivity.
Qed.

Lemma gbz_load_talk be off highmem s m s' m' o : wf_mem m = true -> (forall k, off = Some k -> k < 2 ^ 64) ->
  gbz_load src be off highmem s m = (s', m', o) ->
  exists evs, talk src s evs s' /\ bz_talk be off highmem m evs m' o.
Proof.
  intros Hw Hoff H. unfold gbz_load in H.
  apply gbind_gio in H as [(E1 & -> & ->)|(s1 & n & E1 & H)].
  { exists [SoughtEnd None]. split; [exact (t_end _ _ _ _ _ E1 (talk_nil _ _))|constructor]. }
  change 0x1F1 with 0x1f1 in H.
  apply gbind_gio in H as [(E2 & -> & ->)|(s2 & q & E2 & H)].
  { eexists. split; [exact (t_end _ _ _ _ _ E1 (t_to _ _ _ _ _ _ E2 (talk_nil _ _)))|constructor]. }
  apply gbind_gio in H. unfold gread_header in H. change (size setup_header) with 123 in H.
  destruct (so_read_volatile src s2 123) as [s3 [bs|]] eqn:E3.
  2:{ destruct H as [(E & -> & ->)|(? & ? & E & _)]; [|discriminate]. injection E as ->.
      eexists. split; [exact (t_end _ _ _ _ _ E1 (t_to _ _ _ _ _ _ E2 (t_some _ _ _ _ _ _ E3 (talk_nil _ _))))|constructor]. }
  destruct H as [(E & _)|(s3' & hd & E & H)]; [discriminate|]. injection E as <- <-.
  assert (Hk : lenN bs <= 123) by exact (proj1 (proj2 Hpl) _ _ _ _ E3).
  rewrite (patch_filled bs Hk), <- (as_file_got bs Hk) in H.
  rewrite hdr_header, hdr_version, hdr_loadflags, hdr_setup_sects, hdr_code32, hdr_set_code32, (as_file_got bs Hk), as_file_seen in H.
  set (g := as_file bs) in *.
  assert (T3 : talk src s [SoughtEnd (Some n); SoughtTo 0x1f1 (Some q); ReadSome 123 (Some bs)] s3)
    by exact (t_end _ _ _ _ _ E1 (t_to _ _ _ _ _ _ E2 (t_some _ _ _ _ _ _ E3 (talk_nil _ _)))).
  assert (Hbad : forall e, bz_problem n bs highmem e -> (s3, m, Err e) = (s', m', o) ->
    exists evs, talk src s evs s' /\ bz_talk be off highmem m evs m' o).
  { intros e He Ee. injection Ee as <- <- <-. eexists. split; [exact T3|]. now apply bk_bad. }
  destruct (N.eqb_spec (bz_magic g) 0x53726448) as [Em|Em]; cbn [negb] in H.
  2:{ eapply Hbad; [apply bp_header|exact H]. intros (G & _). contradiction. }
  destruct (N.ltb_spec (bz_version g) 0x200) as [Ev|Ev]; cbn [orb] in H.
  { eapply Hbad; [apply bp_header|exact H]. fold g. intros (_ & G & _). lia. }
  rewrite land1 in H.
  destruct (N.eqb_spec (bz_loadflags g mod 2) 0) as [Ef|Ef].
  { eapply Hbad; [apply bp_header|exact H]. fold g. intros (_ & _ & G). lia. }
  assert (Hgood : bz_header_good g).
  { unfold bz_header_good. split; [assumption|]. split; [assumption|]. destruct (mod2_cases (bz_loadflags g)); [contradiction|assumption]. }
  assert (Hsb : bz_setup_sects g < 256) by apply byte_at_lt.
  set (ss := if bz_setup_sects g =? 0 then 4 else bz_setup_sects g) in *.
  assert (Hs : 1 <= ss < 256) by (unfold ss; destruct (N.eqb_spec (bz_setup_sects g) 0); lia).
  rewrite checked_add_lt in H by (unfold two64; lia). unfold checked_mul in H.
  rewrite (proj2 (N.ltb_lt _ _)) in H by (unfold two64; lia).
  cbn [ok_or] in H. rewrite gbind_pure_ok in H.
  assert (Hss : (ss + 1) * 512 = bz_setup_size g) by (unfold bz_setup_size; fold ss; lia).
  rewrite Hss in H. unfold checked_sub in H.
  destruct (N.leb_spec (bz_setup_size g) n) as [Hle|Hgt].
  2:{ cbn [ok_or] in H. rewrite gbind_pure_err in H. eapply Hbad; [now apply bp_small|exact H]. }
  cbn [ok_or] in H. rewrite gbind_pure_ok in H.
  assert (Hh : (match highmem with Some h => bz_code32_start g <? h | None => false end = false /\ bz_highmem_ok g highmem) \/
               (match highmem with Some h => bz_code32_start g <? h | None => false end = true /\ ~ bz_highmem_ok g highmem)).
  { destruct highmem as [h|]; cbn; [|auto]. destruct (N.ltb_spec (bz_code32_start g) h); [right|left]; (split; [reflexivity|lia]). }
  destruct Hh as [[Eh Hh]|[Eh Hh]]; rewrite Eh in H.
  2:{ eapply Hbad; [now apply bp_start|exact H]. }
  fold (bz_load_addr g off) in H.
  assert (G : bz_good n bs highmem) by (split; [exact Hgood|split; assumption]).
  assert (Ha : bz_load_addr g off < 2 ^ 64).
  { destruct off as [k|]; [now apply Hoff|]. cbn [bz_load_addr]. unfold bz_code32_start. pose proof (u32at_lt g 0x214). lia. }
  apply gbind_gio in H as [(E4 & -> & ->)|(s4 & q2 & E4 & H)].
  { eexists. split; [exact (talk_app _ _ _ _ _ T3 (t_to _ _ _ _ _ _ E4 (talk_nil _ _)))|]. now apply bk_no_kernel. }
  unfold gbind at 1 in H. destruct (gcopy src be (bz_load_addr g off) (n - bz_setup_size g) (LBz ReadBzImageCompressedKernel) s4 m) as [[s5 m5] o5] eqn:Ec.
  assert (Hn64 : n < 2 ^ 64) by exact (proj2 (proj2 (proj2 Hpl)) _ _ _ E1).
  apply gcopy_talk in Ec; [|exact Hw|lia].
  destruct Ec as (evs & T & [(-> & C)|(-> & C)]).
  - assert (Hb : bz_load_addr g off + (n - bz_setup_size g) < 2 ^ 64) by exact (copied_bound _ _ _ _ _ _ Hw Ha C).
    rewrite checked_add_lt in H by exact Hb. cbn [ok_or] in H. rewrite gbind_pure_ok in H. injection H as <- <- <-.
    eexists. split; [exact (talk_app _ _ _ _ _ T3 (t_to _ _ _ _ _ _ E4 T))|]. now apply bk_copied.
  - injection H as <- <- <-. eexists. split; [exact (talk_app _ _ _ _ _ T3 (t_to _ _ _ _ _ _ E4 T))|]. now apply bk_not_copied.
Qed.

(** ** ELF images *)
Lemma slice_whole (h : bytes) n : lenN h = n -> slice h 0 n = h.
Proof. intros <-. apply slice_full. Qed.
Lemma n_fields h : lenN h = 12 ->
  nhdr_get "n_namesz" h = u32at h 0 /\ nhdr_get "n_descsz" h = u32at h 4 /\ nhdr_get "n_type" h = u32at h 8.
Proof.
  intros H. pose proof (nhdr_namesz h 0) as A. pose proof (nhdr_descsz h 0) as B. pose proof (nhdr_type h 0) as C.
  rewrite (slice_whole h 12 H) in A, B, C. rewrite A, B, C by lia. auto.
Qed.
Lemma ph_of_read b : lenN b = 56 -> ph_of b = ph_read b.
Proof. intros H. pose proof (ph_of_slice b 0) as A. rewrite (slice_whole b 56 H) in A. rewrite A by lia. reflexivity. Qed.

(** How the loop over the notes ends. *)
Definition loop_end (bld : build) (start fsz rs : N) (evs : list event) (o : outcome lerror (N * bytes)) : Prop :=
  match o with
  | Ok (rs', h) =>
      (fsz <= rs' /\ notes_talk bld start fsz rs evs (Ok PvhEntryNotPresent)) \/
      (rs' < fsz /\ lenN h = 12 /\ u32at h 0 = 4 /\
       forall tail o', entry_talk h tail o' -> notes_talk bld start fsz rs (evs ++ tail) o')
  | Err e => notes_talk bld start fsz rs evs (Err e)
  | Panic w => notes_talk bld start fsz rs evs (Panic w)
  end.

Lemma gnote_loop_talk bld phdr fuel : forall rs nh s m s' m' o,
  let start := phdr_get "p_offset" phdr in let fsz := phdr_get "p_filesz" phdr in
  rs < 2 ^ 64 -> 2 ^ 64 <= 12 * N.of_nat fuel + rs ->
  gnote_loop src bld fuel phdr rs nh s m = (s', m', o) ->
  m' = m /\ exists evs, talk src s evs s' /\ loop_end bld start fsz rs evs o.
Proof.
  induction fuel as [|fuel IH]; intros rs nh s m s' m' o start fsz Hrs Hfu H; [lia|].
  cbn [gnote_loop] in H. fold start fsz in H.
  destruct (N.ltb_spec rs fsz) as [Hlt|Hge]; cbn [negb] in H.
  2:{ injection H as <- <- <-. split; [reflexivity|]. exists []. split; [apply talk_nil|]. left. split; [assumption|]. now apply nk_end. }
  change (size Elf64_Nhdr) with 12 in H.
  apply gbind_gio in H as [(E1 & -> & ->)|(s1 & h & E1 & H)].
  { split; [reflexivity|]. eexists. split; [exact (t_all _ _ _ _ _ _ E1 (talk_nil _ _))|]. now apply nk_no_header. }
  assert (Hl : lenN h = 12) by exact (proj1 Hpl _ _ _ _ E1).
  destruct (n_fields h Hl) as (F1 & F2 & F3). rewrite F1, F2, F3 in H.
  unfold XEN_ELFNOTE_PHYS32_ENTRY, PVH_NOTE_STR_SZ, ELFNOTE_ALIGN in H.
  set (K := gbind (gpure (align_up bld (u32at h 0) 4)) _) in H.
  assert (Hskip : forall s2 name, talk src s1 name s2 -> other_note h name -> K s2 m = (s', m', o) ->
    m' = m /\ exists evs, talk src s evs s' /\ loop_end bld start fsz rs evs o).
  { clear H. intros s2 name Tn On H. unfold K in H. clear K.
    rewrite !align_up4, !gbind_pure_ok in H by apply u32at_lt.
    assert (T2 : talk src s (ReadAll 12 (Some h) :: name) s2) by exact (t_all _ _ _ _ _ _ E1 Tn).
    pose proof (pad4_spec (u32at h 0)) as (Hq1 & _). pose proof (pad4_spec (u32at h 4)) as (Hq2 & _).
    assert (Hover : 2 ^ 32 <= pad4 (u32at h 0) \/ 2 ^ 32 <= pad4 (u32at h 4) \/ 2 ^ 64 <= rs + note_len h ->
      (s2, m, @Err lerror (N * bytes) (LElf ElfOverflow)) = (s', m', o) ->
      m' = m /\ exists evs, talk src s evs s' /\ loop_end bld start fsz rs evs o).
    { intros Hw E. injection E as <- <- <-. split; [reflexivity|]. eexists. split; [exact T2|]. now apply nk_over. }
    destruct (N.ltb_spec u32_max (pad4 (u32at h 0))) as [Ho1|Ho1]; cbn [orb] in H.
    { apply Hover; [left; change (2 ^ 32) with 4294967296; unfold u32_max in Ho1; lia|exact H]. }
    destruct (N.ltb_spec u32_max (pad4 (u32at h 4))) as [Ho2|Ho2].
    { apply Hover; [right; left; change (2 ^ 32) with 4294967296; unfold u32_max in Ho2; lia|exact H]. }
    assert (Hpf : pads_fit h).
    { unfold pads_fit. change (2 ^ 32) with 4294967296. unfold u32_max in *. lia. }
    clear Ho1 Ho2.
    assert (Hsum : match checked_add rs 12 with
                   | Some x => match checked_add x (pad4 (u32at h 0)) with Some y => checked_add y (pad4 (u32at h 4)) | None => None end
                   | None => None
                   end = checked_add rs (note_len h)).
    { unfold checked_add, note_len. destruct (N.ltb_spec (rs + 12) two64).
      - destruct (N.ltb_spec (rs + 12 + pad4 (u32at h 0)) two64).
        + rewrite !N.add_assoc. reflexivity.
        + symmetry. rewrite (proj2 (N.ltb_ge _ _)) by lia. reflexivity.
      - symmetry. rewrite (proj2 (N.ltb_ge _ _)) by lia. reflexivity. }
    rewrite Hsum in H. unfold checked_add in H. destruct (N.ltb_spec (rs + note_len h) two64) as [Hr2|Hr2].
    2:{ cbn [ok_or] in H. rewrite gbind_pure_err in H. apply Hover; [right; right; exact Hr2|exact H]. }
    cbn [ok_or] in H. rewrite gbind_pure_ok in H. unfold uadd in H.
    assert (Hgo : (bld = true -> start + (rs + note_len h) < 2 ^ 64) ->
      gbind (gio (fun s0 => so_seek_start src s0 ((start + (rs + note_len h)) mod 2 ^ 64)) (LElf SeekNoteHeader))
        (fun _ => gnote_loop src bld fuel phdr (rs + note_len h) h) s2 m = (s', m', o) ->
      m' = m /\ exists evs, talk src s evs s' /\ loop_end bld start fsz rs evs o).
    { intros Hb G. apply gbind_gio in G as [(E3 & -> & ->)|(s3 & q & E3 & G)].
      - split; [reflexivity|]. exists (ReadAll 12 (Some h) :: name ++ [SoughtTo ((start + (rs + note_len h)) mod 2 ^ 64) None]).
        split; [exact (talk_app _ _ _ _ _ T2 (t_to _ _ _ _ _ _ E3 (talk_nil _ _)))|]. now apply nk_no_next.
      - apply IH in G; [|exact Hr2|unfold note_len in *; lia]. destruct G as (-> & evs & T & L). split; [reflexivity|].
        exists (ReadAll 12 (Some h) :: name ++ SoughtTo ((start + (rs + note_len h)) mod 2 ^ 64) (Some q) :: evs).
        split; [exact (talk_app _ _ _ _ _ T2 (t_to _ _ _ _ _ _ E3 T))|].
        assert (Hnext : forall evs' o', notes_talk bld start fsz (rs + note_len h) evs' o' ->
          notes_talk bld start fsz rs (ReadAll 12 (Some h) :: name ++ SoughtTo ((start + (rs + note_len h)) mod 2 ^ 64) (Some q) :: evs') o').
        { intros evs' o' N. now apply nk_next. }
        fold start fsz in L.
        destruct o as [[rs' h']|e|w]; cbn [loop_end] in L |- *; [|now apply Hnext|now apply Hnext].
        destruct L as [(L1 & L2)|(L1 & L2 & L3 & L4)]; [left; split; [exact L1|now apply Hnext]|right].
        split; [exact L1|]. split; [exact L2|]. split; [exact L3|]. intros tail o' Ht. cbn [app]. rewrite <- app_assoc. cbn [app].
        apply Hnext. now apply L4. }
    destruct (N.ltb_spec (start + (rs + note_len h)) two64) as [Hs|Hs].
    - rewrite gbind_pure_ok in H. apply Hgo; [intros _; exact Hs|]. rewrite N.mod_small by exact Hs. exact H.
    - destruct bld; [|rewrite gbind_pure_ok in H; apply Hgo; [discriminate|exact H]].
      injection H as <- <- <-. split; [reflexivity|]. eexists. split; [exact T2|]. now apply nk_panic. }
  destruct (N.eqb_spec (u32at h 8) 18) as [Ht|Ht]; cbn [andb] in H.
  2:{ apply (Hskip s1 [] (talk_nil _ _)); [apply on_plain; [exact Hl|intros [? _]; contradiction]|exact H]. }
  destruct (N.eqb_spec (u32at h 0) 4) as [Hs|Hs].
  2:{ apply (Hskip s1 [] (talk_nil _ _)); [apply on_plain; [exact Hl|intros [_ ?]; contradiction]|exact H]. }
  unfold gbind at 1 in H.
  destruct (gbind _ _ s1 m) as [[s2 m2] o2] eqn:En in H.
  apply gbind_gio in En as [(E2 & -> & ->)|(s2' & nm & E2 & En)].
  { injection H as <- <- <-. split; [reflexivity|]. eexists. split; [exact (t_all _ _ _ _ _ _ E1 (t_all _ _ _ _ _ _ E2 (talk_nil _ _)))|].
    now apply nk_no_name. }
  assert (Hln : lenN nm = 4) by exact (proj1 Hpl _ _ _ _ E2).
  injection En as <- <- <-.
  destruct (is_xen nm) eqn:Ex.
  - apply is_xen_iff in Ex as ->. injection H as <- <- <-. split; [reflexivity|].
    eexists. split; [exact (t_all _ _ _ _ _ _ E1 (t_all _ _ _ _ _ _ E2 (talk_nil _ _)))|]. right.
    split; [exact Hlt|]. split; [exact Hl|]. split; [exact Hs|]. intros tail o' Hen. cbn [app]. now apply nk_found.
  - apply is_xen_false in Ex. apply (Hskip s2' [ReadAll 4 (Some nm)] (t_all _ _ _ _ _ _ E2 (talk_nil _ _))); [now apply on_named|exact H].
Qed.

Lemma gparse_talk bld be b s m s' m' o : is_load (ph_of b) = false -> is_note (ph_of b) = true ->
  gparse_elf_note src bld b s m = (s', m', o) ->
  m' = m /\ exists evs, talk src s evs s' /\
    ph_talk bld be None m (ph_of b) evs m (match o with Ok c => Ok (Some c) | Err e => Err e | Panic w => Panic w end).
Proof.
  intros Hl Hn H. unfold gparse_elf_note in H.
  apply gbind_gio in H as [(E1 & -> & ->)|(s1 & q & E1 & H)].
  { split; [reflexivity|]. eexists. split; [exact (t_to _ _ _ _ _ _ E1 (talk_nil _ _))|]. now apply hk_no_notes. }
  unfold gbind at 1 in H.
  destruct (gnote_loop src bld (Datatypes.S (so_len src s1 / 12)) b 0 (default_of Elf64_Nhdr) s1 m) as [[s2 m2] o2] eqn:Eg.
  apply gnote_loop_talk in Eg; [|reflexivity|].
  2:{ pose proof (Hro s1) as R. pose proof (Nat.div_mod (so_len src s1) 12 ltac:(lia)). pose proof (Nat.mod_upper_bound (so_len src s1) 12 ltac:(lia)). lia. }
  destruct Eg as (-> & evs & T & L).
  assert (Hall : forall s3 evs' o', talk src s1 evs' s3 -> notes_talk bld (ph_offset (ph_of b)) (ph_filesz (ph_of b)) 0 evs' o' -> s3 = s' -> m = m' -> o' = o ->
    m' = m /\ exists evs, talk src s evs s' /\ ph_talk bld be None m (ph_of b) evs m (match o with Ok c => Ok (Some c) | Err e => Err e | Panic w => Panic w end)).
  { intros s3 evs' o' T' N <- <- <-. split; [reflexivity|]. eexists. split; [exact (t_to _ _ _ _ _ _ E1 T')|]. now apply hk_notes. }
  destruct o2 as [[rs h]|e|w]; cbn [loop_end] in L.
  2:{ injection H as <- <- <-. exact (Hall _ _ _ T L eq_refl eq_refl eq_refl). }
  2:{ injection H as <- <- <-. exact (Hall _ _ _ T L eq_refl eq_refl eq_refl). }
  cbn [fst snd] in H. cbv zeta in H.
  destruct L as [(L1 & L2)|(L1 & L2 & L3 & L4)].
  { rewrite (proj2 (N.leb_le _ _) L1) in H. injection H as <- <- <-. exact (Hall _ _ _ T L2 eq_refl eq_refl eq_refl). }
  rewrite (proj2 (N.leb_gt _ _) L1) in H. destruct (n_fields h L2) as (F1 & F2 & _). rewrite F1, F2, L3 in H.
  unfold ELFNOTE_ALIGN, PVH_NOTE_STR_SZ in H. rewrite align_up4 in H by reflexivity. rewrite gbind_pure_ok in H.
  change (Z.of_N (pad4 4) - Z.of_N 4)%Z with 0%Z in H.
  apply gbind_gio in H as [(E3 & -> & ->)|(s3 & q3 & E3 & H)].
  { apply (Hall _ _ _ (talk_app _ _ _ _ _ T (t_by _ _ _ _ _ _ E3 (talk_nil _ _))) (L4 _ _ (en_no_move h)) eq_refl eq_refl eq_refl). }
  destruct (N.ltb_spec (u32at h 4) 4) as [Hd|Hd].
  { injection H as <- <- <-.
    apply (Hall _ _ _ (talk_app _ _ _ _ _ T (t_by _ _ _ _ _ _ E3 (talk_nil _ _))) (L4 _ _ (en_small h q3 Hd)) eq_refl eq_refl eq_refl). }
  apply gbind_gio in H as [(E4 & -> & ->)|(s4 & d & E4 & H)].
  { apply (Hall _ _ _ (talk_app _ _ _ _ _ T (t_by _ _ _ _ _ _ E3 (t_all _ _ _ _ _ _ E4 (talk_nil _ _)))) (L4 _ _ (en_no_desc h q3 Hd)) eq_refl eq_refl eq_refl). }
  assert (Hld : lenN d = 4) by exact (proj1 Hpl _ _ _ _ E4). injection H as <- <- <-.
  apply (Hall _ _ _ (talk_app _ _ _ _ _ T (t_by _ _ _ _ _ _ E3 (t_all _ _ _ _ _ _ E4 (talk_nil _ _)))) (L4 _ _ (en_found h q3 d Hd Hld)) eq_refl eq_refl).
  rewrite <- le_dec_slice4, (slice_whole d 4 Hld). reflexivity.
Qed.

Lemma gread_phdrs_talk n : forall s m s' m' o, gread_phdrs src n s m = (s', m', o) ->
  m' = m /\ exists bs, Forall (fun b => lenN b = 56) bs /\
    ((o = Ok bs /\ length bs = n /\ talk src s (map got_entry bs) s') \/
     (o = Err (LElf ReadProgramHeader) /\ (length bs < n)%nat /\ talk src s (map got_entry bs ++ [ReadAll 56 None]) s')).
Proof.
  induction n as [|n IH]; intros s m s' m' o H; cbn [gread_phdrs] in H.
  { injection H as <- <- <-. split; [reflexivity|]. exists []. split; [constructor|]. left. split; [reflexivity|]. split; [reflexivity|]. apply talk_nil. }
  change (size Elf64_Phdr) with 56 in H.
  apply gbind_gio in H as [(E1 & -> & ->)|(s1 & b & E1 & H)].
  { split; [reflexivity|]. exists []. split; [constructor|]. right. split; [reflexivity|]. split; [cbn; lia|]. exact (t_all _ _ _ _ _ _ E1 (talk_nil _ _)). }
  assert (Hl : lenN b = 56) by exact (proj1 Hpl _ _ _ _ E1).
  unfold gbind in H. destruct (gread_phdrs src n s1 m) as [[s2 m2] o2] eqn:E2. apply IH in E2 as (-> & bs & Hbs & [(-> & L & T)|(-> & L & T)]).
  - injection H as <- <- <-. split; [reflexivity|]. exists (b :: bs). split; [now constructor|]. left. split; [reflexivity|]. split; [cbn; lia|].
    exact (t_all _ _ _ _ _ _ E1 T).
  - injection H as <- <- <-. split; [reflexivity|]. exists (b :: bs). split; [now constructor|]. right. split; [reflexivity|]. split; [cbn; lia|].
    exact (t_all _ _ _ _ _ _ E1 T).
Qed.

Lemma gload_phdrs_talk bld be off phdrs : Forall (fun b => lenN b = 56) phdrs -> forall kend cap s m s' m' o,
  wf_mem m = true -> gload_phdrs src bld be off phdrs kend cap s m = (s', m', o) ->
  exists evs o', talk src s evs s' /\ table_talk bld be off m (map ph_read phdrs) cap evs m' o' /\
    o = match o' with Ok c => Ok (N.max kend (max_end off (map ph_read phdrs)), c) | Err e => Err e | Panic w => Panic w end.
Proof.
  induction 1 as [|b phdrs Hb _ IH]; intros kend cap s m s' m' o Hw H; cbn [gload_phdrs map] in H |- *.
  { injection H as <- <- <-. exists [], (Ok cap). split; [apply talk_nil|]. split; [constructor|]. f_equal. f_equal. unfold max_end. cbn. lia. }
  assert (Hty : phdr_get "p_type" b = ph_type (ph_of b)) by reflexivity.
  assert (Hfz : phdr_get "p_filesz" b = ph_filesz (ph_of b)) by reflexivity.
  assert (Hof : phdr_get "p_offset" b = ph_offset (ph_of b)) by reflexivity.
  assert (Hpa : phdr_get "p_paddr" b = ph_paddr (ph_of b)) by reflexivity.
  assert (Hms : phdr_get "p_memsz" b = ph_memsz (ph_of b)) by reflexivity.
  assert (Hpl' : phdr_get "p_paddr" b < two64) by apply paddr_lt.
  assert (Hload : negb (phdr_get "p_type" b =? PT_LOAD) || (phdr_get "p_filesz" b =? 0) = negb (is_load (ph_of b))).
  { unfold is_load. rewrite negb_andb, negb_involutive. reflexivity. }
  rewrite Hload in H.
  assert (Hn : (phdr_get "p_type" b =? PT_NOTE) = is_note (ph_of b)) by reflexivity.
  rewrite Hn in H.
  pose proof (gparse_talk bld be b) as Hgp.
  rewrite Hpa in Hpl'.
  rewrite Hof, Hfz, Hpa, Hms in H. rewrite (ph_of_read b Hb) in *. set (p := ph_read b) in *. set (ps := map ph_read phdrs) in *.
  clear Hty Hfz Hof Hpa Hms Hload Hn.
  destruct (is_load p) eqn:El; cbn [negb] in H.
  2:{ assert (Hmax : max_end off (p :: ps) = max_end off ps).
      { unfold max_end, loaded. cbn [filter]. now rewrite El. }
      rewrite Hmax.
      assert (Hgo : forall s1 evs c1, talk src s evs s1 -> ph_talk bld be off m p evs m (Ok c1) ->
        gload_phdrs src bld be off phdrs kend (match c1 with Some x => x | None => cap end) s1 m = (s', m', o) ->
        exists evs o', talk src s evs s' /\ table_talk bld be off m (p :: ps) cap evs m' o' /\
          o = match o' with Ok c => Ok (N.max kend (max_end off ps), c) | Err e => Err e | Panic w => Panic w end).
      { intros s1 evs c1 T P G. apply IH in G as (evs2 & o' & T2 & K & ->); [|exact Hw].
        exists (evs ++ evs2), o'. split; [exact (talk_app _ _ _ _ _ T T2)|]. split; [|reflexivity].
        now apply tk_cons with (m1 := m) (c1 := c1). }
      destruct (is_note p) eqn:En.
      2:{ apply (Hgo s [] None (talk_nil _ _)); [now apply hk_other|exact H]. }
      destruct off as [k|] eqn:Eoff.
      { apply (Hgo s [] (Some PvhEntryIgnored) (talk_nil _ _)); [now apply hk_ignored with (k := k)|exact H]. }
      unfold gbind in H. destruct (gparse_elf_note src bld b s m) as [[s1 m1] o1] eqn:Ep.
      destruct (Hgp s m _ _ _ eq_refl eq_refl Ep) as (-> & evs & T & P).
      destruct o1 as [c|e|w].
      - exact (Hgo s1 evs (Some c) T P H).
      - injection H as <- <- <-. exists evs, (Err e). split; [exact T|]. split; [now apply tk_err|reflexivity].
      - injection H as <- <- <-. exists evs, (Panic w). split; [exact T|]. split; [now apply tk_panic|reflexivity]. }
  assert (Hstop : forall s1 evs m1 e, talk src s evs s1 -> ph_talk bld be off m p evs m1 (Err e) -> (s1, m1, Err e) = (s', m', o) ->
    exists evs o', talk src s evs s' /\ table_talk bld be off m (p :: ps) cap evs m' o' /\
      o = match o' with Ok c => Ok (N.max kend (max_end off (p :: ps)), c) | Err e => Err e | Panic w => Panic w end).
  { intros s1 evs m1 e T P E. injection E as <- <- <-. exists evs, (Err e). split; [exact T|]. split; [now apply tk_err|reflexivity]. }
  apply gbind_gio in H as [(E1 & -> & ->)|(s1 & q & E1 & H)].
  { exact (Hstop _ _ _ _ (t_to _ _ _ _ _ _ E1 (talk_nil _ _)) (hk_no_start bld be off m p El) eq_refl). }
  assert (Haddr : match off with
                  | Some k => ok_or (checked_add k (ph_paddr p)) (LElf InvalidProgramHeaderAddress)
                  | None => Ok (ph_paddr p)
                  end = if base_of off + ph_paddr p <? two64 then Ok (base_of off + ph_paddr p)
                        else Err (LElf InvalidProgramHeaderAddress)).
  { destruct off as [k|]; cbn [base_of].
    - unfold checked_add. destruct (k + ph_paddr p <? two64); reflexivity.
    - rewrite N.add_0_l, (proj2 (N.ltb_lt _ _)) by exact Hpl'. reflexivity. }
  rewrite Haddr in H. clear Haddr. destruct (N.ltb_spec (base_of off + ph_paddr p) two64) as [Hlt|Hge].
  2:{ rewrite gbind_pure_err in H.
      exact (Hstop _ _ _ _ (t_to _ _ _ _ _ _ E1 (talk_nil _ _)) (hk_addr bld be off m p q El Hge) H). }
  rewrite gbind_pure_ok in H. unfold gbind at 1 in H.
  destruct (gcopy src be (base_of off + ph_paddr p) (ph_filesz p) (LElf ReadKernelImage) s1 m) as [[s2 m2] o2] eqn:Ec.
  apply gcopy_talk in Ec; [|exact Hw|exact (u64at_lt b 32)].
  destruct Ec as (evs & T & [(-> & C)|(-> & C)]).
  2:{ exact (Hstop _ _ _ _ (t_to _ _ _ _ _ _ E1 T) (hk_not_copied bld be off m p q evs m2 El Hlt C) H). }
  unfold checked_add in H at 1. destruct (N.ltb_spec (base_of off + ph_paddr p + ph_memsz p) two64) as [He|He]; cbn [ok_or] in H.
  2:{ rewrite gbind_pure_err in H. exact (Hstop _ _ _ _ (t_to _ _ _ _ _ _ E1 T) (hk_end bld be off m p q evs m2 El Hlt C He) H). }
  rewrite gbind_pure_ok in H. apply IH in H as (evs2 & o' & T2 & K & ->).
  2:{ rewrite (wf_mem_regions m m2); [exact Hw|]. apply C. }
  exists ((SoughtTo (ph_offset p) (Some q) :: evs) ++ evs2), o'. split; [exact (talk_app _ _ _ _ _ (t_to _ _ _ _ _ _ E1 T) T2)|].
  split.
  - apply tk_cons with (m1 := m2) (c1 := None); [now apply hk_copied|exact K].
  - destruct o'; try reflexivity. f_equal. f_equal. unfold max_end, loaded. cbn [filter]. rewrite El. cbn [map fold_right]. unfold end_of. lia.
Qed.

Lemma gelf_load_talk bld be off highmem s m s' m' o : wf_mem m = true -> gelf_load src bld be off highmem s m = (s', m', o) ->
  exists evs, talk src s evs s' /\ elf_talk bld be off highmem m evs m' o.
Proof.
  intros Hw H. unfold gelf_load in H.
  apply gbind_gio in H as [(E1 & -> & ->)|(s1 & q & E1 & H)].
  { eexists. split; [exact (t_to _ _ _ _ _ _ E1 (talk_nil _ _))|constructor]. }
  change (size Elf64_Ehdr) with 64 in H.
  apply gbind_gio in H as [(E2 & -> & ->)|(s2 & h & E2 & H)].
  { eexists. split; [exact (t_to _ _ _ _ _ _ E1 (t_all _ _ _ _ _ _ E2 (talk_nil _ _)))|constructor]. }
  assert (Hl : lenN h = 64) by exact (proj1 Hpl _ _ _ _ E2). assert (Hle : 64 <= lenN h) by lia.
  assert (T2 : talk src s [SoughtTo 0 (Some q); ReadAll 64 (Some h)] s2) by exact (t_to _ _ _ _ _ _ E1 (t_all _ _ _ _ _ _ E2 (talk_nil _ _))).
  assert (Hbad : forall e, elf_problem h off highmem e -> (s2, m, Err (LElf e)) = (s', m', o) ->
    exists evs, talk src s evs s' /\ elf_talk bld be off highmem m evs m' o).
  { intros e He E. injection E as <- <- <-. eexists. split; [exact T2|]. now apply ek_bad. }
  pose proof (validate_header_spec h Hle) as V. pose proof (ehdr_entry h Hle) as A1. pose proof (ehdr_phoff h Hle) as A2. pose proof (ehdr_phnum h Hle) as A3.
  rewrite (slice64 h Hl) in V, A1, A2, A3. rewrite A1, A2, A3 in H. clear A1 A2 A3.
  destruct V as [(V & Hg)|(e & V & Hp)]; rewrite V in H.
  2:{ rewrite gbind_pure_err in H. exact (Hbad _ (ep_header _ _ _ _ Hp) H). }
  rewrite gbind_pure_ok in H.
  assert (Hh : highmem_ok h highmem /\ match highmem with Some addr => if entry_of h <? addr then @gfail S lerror unit (LElf InvalidEntryAddress) else gret tt | None => gret tt end = gret tt \/
    ~ highmem_ok h highmem /\ match highmem with Some addr => if entry_of h <? addr then @gfail S lerror unit (LElf InvalidEntryAddress) else gret tt | None => gret tt end = gfail (LElf InvalidEntryAddress)).
  { destruct highmem as [a|]; cbn [highmem_ok]; [|left; auto]. destruct (N.ltb_spec (entry_of h) a); [right|left]; (split; [lia|reflexivity]). }
  destruct Hh as [(Hh & Eh)|(Hh & Eh)]; rewrite Eh in H.
  2:{ exact (Hbad _ (ep_entry _ _ _ Hg Hh) H). }
  clear Eh. unfold gbind at 1 in H. unfold gret at 1 in H.
  assert (Haddr : match off with Some k => ok_or (checked_add k (entry_of h)) (LElf ElfOverflow) | None => Ok (entry_of h) end
    = if base_of off + entry_of h <? two64 then Ok (base_of off + entry_of h) else Err (LElf ElfOverflow)).
  { destruct off as [k|]; cbn [base_of].
    - unfold checked_add. destruct (k + entry_of h <? two64); reflexivity.
    - rewrite N.add_0_l, (proj2 (N.ltb_lt _ _)) by apply u64at_lt. reflexivity. }
  rewrite Haddr in H. clear Haddr. destruct (N.ltb_spec (base_of off + entry_of h) two64) as [Hlt|Hge].
  2:{ rewrite gbind_pure_err in H. exact (Hbad _ (ep_overflow _ _ _ Hg Hh Hge) H). }
  rewrite gbind_pure_ok in H. assert (Hgood : elf_good h off highmem) by (split; [exact Hl|split; [exact Hg|split; [exact Hh|exact Hlt]]]).
  apply gbind_gio in H as [(E3 & -> & ->)|(s3 & q2 & E3 & H)].
  { eexists. split; [exact (talk_app _ _ _ _ _ T2 (t_to _ _ _ _ _ _ E3 (talk_nil _ _)))|]. now apply ek_no_table. }
  unfold gbind at 1 in H. destruct (gread_phdrs src (N.to_nat (phnum_of h)) s3 m) as [[s4 m4] o4] eqn:E4.
  apply gread_phdrs_talk in E4 as (-> & bs & Hbs & [(-> & L & T)|(-> & L & T)]).
  2:{ injection H as <- <- <-. eexists. split; [exact (talk_app _ _ _ _ _ T2 (t_to _ _ _ _ _ _ E3 T))|].
      apply ek_short_table; [exact Hgood|unfold lenN; lia|exact Hbs]. }
  unfold gbind at 1 in H. destruct (gload_phdrs src bld be off bs 0 PvhEntryIgnored s4 m) as [[s5 m5] o5] eqn:E5.
  apply gload_phdrs_talk in E5 as (evs & o' & T5 & K & ->); [|exact Hbs|exact Hw].
  exists (SoughtTo 0 (Some q) :: ReadAll 64 (Some h) :: SoughtTo (phoff_of h) (Some q2) :: map got_entry bs ++ evs).
  assert (TT : talk src s (SoughtTo 0 (Some q) :: ReadAll 64 (Some h) :: SoughtTo (phoff_of h) (Some q2) :: map got_entry bs ++ evs) s5)
    by exact (talk_app _ _ _ _ _ T2 (t_to _ _ _ _ _ _ E3 (talk_app _ _ _ _ _ T T5))).
  assert (Lb : lenN bs = phnum_of h) by (unfold lenN; lia).
  pose proof (ek_table bld be off highmem m q h q2 bs evs m5 o' Hgood Lb Hbs K) as R.
  destruct o' as [c|e|w]; injection H as <- <- <-; (split; [exact TT|]); try exact R.
  cbn [fst snd]. rewrite N.max_0_l. exact R.
Qed.
End Talk.
