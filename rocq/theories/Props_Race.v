(** * Props_Race: theorems for C114 (threads that load into overlapping areas of guest memory). *)
From Verif Require Import Base Base_proofs Io Mem SpecMem Text Cmdline Loader Elf SpecElf BzImage Pe BootParams Configurators SpecVmm
  SpecTrace SpecRace Mem_proofs Vmm_proofs Props_Vmm Trace_proofs Props_Trace Demo_elf.
From Coq Require Import Lia.

(** ** Mixtures *)
Lemma interleave_in {A} (ls : list (list A)) l : interleave ls l -> forall x, In x l -> exists k, In k ls /\ In x k.
Proof.
  induction 1 as [ls F|before x xs after l H IH]; intros y Hy; [destruct Hy|].
  destruct Hy as [ <- |Hy].
  - exists (x :: xs). split; [apply in_or_app; right; now left|now left].
  - destruct (IH _ Hy) as (k & Hk & Hi). apply in_app_or in Hk as [Hk|[ <- |Hk]].
    + exists k. split; [apply in_or_app; now left|exact Hi].
    + exists (x :: xs). split; [apply in_or_app; right; now left|now right].
    + exists k. split; [apply in_or_app; right; now right|exact Hi].
Qed.
Lemma interleave_all {A} (ls : list (list A)) l : interleave ls l -> forall k x, In k ls -> In x k -> In x l.
Proof.
  induction 1 as [ls F|before x xs after l H IH]; intros k y Hk Hy.
  - rewrite Forall_forall in F. rewrite (F k Hk) in Hy. destruct Hy.
  - apply in_app_or in Hk as [Hk|[ <- |Hk]].
    + right. apply (IH k y); [apply in_or_app; now left|exact Hy].
    + destruct Hy as [ <- |Hy]; [now left|right]. apply (IH xs y); [apply in_or_app; right; now left|exact Hy].
    + right. apply (IH k y); [apply in_or_app; right; now right|exact Hy].
Qed.
(** The byte a mixture leaves at an address is the byte one of the lists alone leaves there. *)
Lemma interleave_last ls l : interleave ls l -> forall (f : N -> byte) a, 
  (forall k b, In k ls -> ~ In (a, b) k) \/
  (exists k b, In k ls /\ In (a, b) k /\ replay l f a = replay k f a).
Proof.
  induction 1 as [ls F|before [c b] xs after l H IH]; intros f a.
  - left. intros k b Hk Hi. rewrite Forall_forall in F. rewrite (F k Hk) in Hi. destruct Hi.
  - change (replay ((c, b) :: l) f a) with (replay l (fun x => if x =? c then b else f x) a).
    set (g := fun x => if x =? c then b else f x).
    destruct (IH g a) as [Q|(k & b' & Hk & Hi & E)].
    + destruct (N.eq_dec a c) as [ -> |Hne].
      * right. exists ((c, b) :: xs), b. split; [apply in_or_app; right; now left|]. split; [now left|].
        change (replay ((c, b) :: xs) f c) with (replay xs g c).
        assert (Z : forall k, (forall b, ~ In (c, b) k) -> replay k g c = g c).
        { intros k Hk. rewrite replay_filter, filter_quiet by exact Hk. reflexivity. }
        rewrite (Z l), (Z xs); [reflexivity| |].
        -- intros b0. apply Q. apply in_or_app. right. now left.
        -- intros b0 Hl. destruct (interleave_in _ _ H _ Hl) as (k & Hk & Hi). exact (Q k b0 Hk Hi).
      * left. intros k b' Hk Hi. apply in_app_or in Hk as [Hk|[ <- |Hk]].
        -- apply (Q k b'); [apply in_or_app; now left|exact Hi].
        -- destruct Hi as [Hi|Hi]; [injection Hi as -> _; now apply Hne|]. apply (Q xs b'); [apply in_or_app; right; now left|exact Hi].
        -- apply (Q k b'); [apply in_or_app; right; now right|exact Hi].
    + right. apply in_app_or in Hk as [Hk|[ <- |Hk]].
      * exists k, b'. split; [apply in_or_app; now left|]. split; [exact Hi|]. rewrite E. exact (replay_stored_any _ _ _ _ _ Hi).
      * exists ((c, b) :: xs), b'. split; [apply in_or_app; right; now left|]. split; [now right|]. rewrite E. reflexivity.
      * exists k, b'. split; [apply in_or_app; right; now right|]. split; [exact Hi|]. rewrite E. exact (replay_stored_any _ _ _ _ _ Hi).
Qed.

(** ** One thread *)
Lemma thread_puts bld be ts : forall m m' xs l, wf_mem m = true -> Forall task_typed ts -> Forall (unbroken be) ts ->
  perform_all bld be ts m = (m', xs) -> made m m' l -> forall a b, In (a, b) l -> may_put ts a b.
Proof.
  induction ts as [|t ts IH]; intros m m' xs l Hw Ht Hu H M a b Hi; cbn [perform_all] in H.
  { inversion H; subst. rewrite (made_unique _ _ _ _ M (made_refl _)) in Hi. destruct Hi. }
  destruct (perform bld be t m) as [m1 x] eqn:E1. destruct (perform_all bld be ts m1) as [m2 xs2] eqn:E2. inversion H; subst m' xs.
  inversion Ht; subst. inversion Hu; subst.
  destruct (C72_in_order bld be t m m1 x) as (pieces & l1 & rest & P & M1 & E & _); try assumption.
  destruct (C72_stores_are_all _ _ _ _ _ _ E1) as (_ & _ & R1 & _).
  destruct (perform_all_replay _ _ _ _ _ _ E2) as (l2 & M2 & R2 & B2).
  rewrite (made_unique _ _ _ _ M (made_trans _ _ _ _ _ M1 M2)) in Hi. apply in_app_or in Hi as [Hi|Hi].
  - assert (Hs : In (a, b) (all_stores pieces)) by (rewrite E; apply in_or_app; now left).
    apply in_all_stores in Hs as (s & Hs & Rg & Hn). exists t, pieces, s. split; [now left|]. auto.
  - destruct (IH m1 m2 xs2 l2) with (a := a) (b := b) as (u & p & s & Hx & Rest); try assumption.
    + now rewrite (wf_mem_regions _ _ R1).
    + exists u, p, s. split; [now right|exact Rest].
Qed.
Lemma logs_puts bld be m threads logs : wf_mem m = true -> Forall (Forall task_typed) threads -> all_unbroken be threads ->
  Forall2 (thread_stores bld be m) threads logs ->
  forall j ts k a b, nth_error threads j = Some ts -> nth_error logs j = Some k -> In (a, b) k -> may_put ts a b.
Proof.
  intros Hw Ht Hu HL j ts k a b E1 E2 Hi. destruct (Forall2_nth_error _ _ _ HL j ts k E1 E2) as (mj & xs & Hp & Hm).
  apply nth_error_In in E1. unfold all_unbroken in Hu. rewrite Forall_forall in Ht, Hu.
  exact (thread_puts bld be ts m mj xs k Hw (Ht _ E1) (Hu _ E1) Hp Hm a b Hi).
Qed.
Lemma logs_owner {A B} (R : A -> B -> Prop) l1 l2 : Forall2 R l1 l2 -> forall y, In y l2 -> exists j x, nth_error l1 j = Some x /\ nth_error l2 j = Some y.
Proof.
  induction 1 as [|x y l1 l2 H F IH]; intros z Hz; [destruct Hz|]. destruct Hz as [ <- |Hz].
  - now exists 0%nat, x.
  - destruct (IH z Hz) as (j & x' & E1 & E2). now exists (S j), x'.
Qed.

(** ** C114 *)
(** Threads load at the same time, possibly into the same places, while something else ([noise])
    writes too.  Look at any moment, with whichever of the stores visible, in whatever order:
    every byte of guest memory is the original one, or one the noise stored there, or one that
    some call of some thread is meant to put there. *)
Theorem C114_nothing_invented : forall bld be m threads logs noise l visible,
  wf_mem m = true -> Forall (Forall task_typed) threads -> all_unbroken be threads ->
  Forall2 (thread_stores bld be m) threads logs -> interleave (noise :: logs) l -> incl visible l ->
  forall a, replay visible (gm_byte m) a = gm_byte m a \/
    In (a, replay visible (gm_byte m) a) noise \/
    exists ts, In ts threads /\ may_put ts a (replay visible (gm_byte m) a).
Proof.
  intros bld be m threads logs noise l vis Hw Ht Hu HL Hl Hi a.
  destruct (replay_at vis (gm_byte m) a) as [Ea|Ea]; [now left|right].
  apply Hi in Ea. destruct (interleave_in _ _ Hl _ Ea) as (k & [ <- |Hk] & Hin); [now left|right].
  destruct (logs_owner _ _ _ HL k Hk) as (j & ts & E1 & E2). exists ts. split; [exact (nth_error_In _ _ E1)|].
  exact (logs_puts bld be m threads logs Hw Ht Hu HL j ts k a _ E1 E2 Hin).
Qed.

(** When all have finished, each byte is as one of the threads running alone would leave it (or
    as the noise alone, or as it was): overlapping loads may be mixed, byte by byte, but no byte
    is anything else.  This holds for all sources, also those that fail. *)
Theorem C114_each_byte_from_one_thread : forall bld be m threads logs noise l,
  wf_mem m = true -> Forall (Forall task_typed) threads ->
  Forall2 (thread_stores bld be m) threads logs -> interleave (noise :: logs) l ->
  forall a,
    (replay l (gm_byte m) a = replay noise (gm_byte m) a \/
     exists ts mi xs, In ts threads /\ perform_all bld be ts m = (mi, xs) /\ replay l (gm_byte m) a = gm_byte mi a) /\
    ((forall ts, In ts threads -> ~ thread_touches ts a) -> replay l (gm_byte m) a = replay noise (gm_byte m) a).
Proof.
  intros bld be m threads logs noise l Hw Ht HL Hl a.
  destruct (interleave_last _ _ Hl (gm_byte m) a) as [Q|(k & b & Hk & Hi & E)].
  { assert (Z : replay l (gm_byte m) a = replay noise (gm_byte m) a); [|split; [now left|now intros _]].
    rewrite (replay_filter l), (replay_filter noise), (filter_quiet l), (filter_quiet noise); [reflexivity| |].
    - intros b. apply Q. now left.
    - intros b Hb. destruct (interleave_in _ _ Hl _ Hb) as (k & Hk & Hin). exact (Q k _ Hk Hin). }
  destruct Hk as [ <- |Hk]; [split; [now left|now intros _]|].
  destruct (logs_owner _ _ _ HL k Hk) as (j & ts & E1 & E2).
  destruct (Forall2_nth_error _ _ _ HL j ts k E1 E2) as (mj & xs & Hp & Hm).
  destruct (perform_all_replay _ _ _ _ _ _ Hp) as (l' & Hm' & _ & B). rewrite (made_unique _ _ _ _ Hm' Hm) in B.
  split.
  - right. exists ts, mj, xs. split; [exact (nth_error_In _ _ E1)|]. split; [exact Hp|]. now rewrite E, B.
  - intros T. exfalso. specialize (T ts (nth_error_In _ _ E1)). revert Hi.
    eapply perform_all_bounds; [exact Hw| |exact Hp|exact Hm|exact T].
    rewrite Forall_forall in Ht. apply Ht. exact (nth_error_In _ _ E1).
Qed.

(** Lists of stores that agree wherever two of them store: the order of mixing does not matter. *)
Lemma replay_only l (f : N -> byte) a v : (exists b, In (a, b) l) -> (forall b, In (a, b) l -> b = v) -> replay l f a = v.
Proof. intros (b & Hb) Hv. exact (Hv _ (replay_stored _ _ _ _ Hb)). Qed.
Lemma interleave_agree ls l1 l2 (f : N -> byte) a : interleave ls l1 -> interleave ls l2 ->
  (forall i j k k' b b', i <> j -> nth_error ls i = Some k -> nth_error ls j = Some k' -> In (a, b) k -> In (a, b') k' -> b = b') ->
  replay l1 f a = replay l2 f a.
Proof.
  intros H1 H2 D. destruct (owner_dec a ls) as [(i & k & b & E & Hi)|Q].
  - (* does another list store at [a]? *)
    set (rest := firstn i ls ++ skipn (S i) ls).
    assert (Split : ls = firstn i ls ++ k :: skipn (S i) ls).
    { rewrite <- (firstn_skipn i ls) at 1. f_equal. clear -E. revert ls E. induction i as [|i IH]; intros [|x ls] E; cbn in *; try discriminate.
      - now injection E as ->.
      - now apply IH. }
    assert (Li : length (firstn i ls) = i).
    { apply firstn_length_le. apply Nat.lt_le_incl. apply nth_error_Some. congruence. }
    assert (Rest : forall k', In k' rest -> exists j, j <> i /\ nth_error ls j = Some k').
    { intros k' Hk. apply in_app_or in Hk as [Hk|Hk]; apply In_nth_error in Hk as (j & Ej).
      - exists j. assert (j < i)%nat by (rewrite <- Li; apply nth_error_Some; congruence). split; [lia|].
        rewrite Split, nth_error_app1 by lia. exact Ej.
      - exists (S i + j)%nat. split; [lia|]. rewrite Split, nth_error_app2 by lia. rewrite Li. replace (S i + j - i)%nat with (S j) by lia. exact Ej. }
    assert (Rest' : forall j k', j <> i -> nth_error ls j = Some k' -> In k' rest).
    { intros j k' Hne Ej. rewrite Split in Ej. destruct (Nat.lt_ge_cases j i) as [Hlt|Hge].
      - rewrite nth_error_app1 in Ej by lia. apply in_or_app. left. exact (nth_error_In _ _ Ej).
      - rewrite nth_error_app2, Li in Ej by lia. destruct (j - i)%nat as [|n] eqn:En; [lia|]. cbn [nth_error] in Ej. apply in_or_app. right. exact (nth_error_In _ _ Ej). }
    destruct (owner_dec a rest) as [(j & k' & b' & E' & Hi')|Q].
    + destruct (Rest k' (nth_error_In _ _ E')) as (j' & Hne & Ej).
      assert (All : forall c, (exists k0, In k0 ls /\ In (a, c) k0) -> c = b).
      { intros c (k0 & Hk0 & Hc). apply In_nth_error in Hk0 as (n & En). destruct (Nat.eq_dec n i) as [ -> |Hn].
        - rewrite E in En. injection En as <-. pose proof (D j' i k' k b' b Hne Ej E Hi' Hi). pose proof (D j' i k' k b' c Hne Ej E Hi' Hc). congruence.
        - exact (D n i k0 k c b Hn En E Hc Hi). }
      assert (V : forall l, interleave ls l -> replay l f a = b).
      { intros l H. apply replay_only.
        - exists b. exact (interleave_all _ _ H k _ (nth_error_In _ _ E) Hi).
        - intros c Hc. apply All. exact (interleave_in _ _ H _ Hc). }
      now rewrite (V l1 H1), (V l2 H2).
    + rewrite (interleave_at _ _ i k f a H1 E), (interleave_at _ _ i k f a H2 E); [reflexivity| |];
        intros j k' b' Hne E'; apply Q; exact (Rest' j k' Hne E').
  - assert (Z : forall l, interleave ls l -> replay l f a = f a).
    { intros l H. rewrite replay_filter. rewrite filter_quiet; [reflexivity|]. intros b Hb.
      destruct (interleave_in _ _ H _ Hb) as (k & Hk & Hin). exact (Q k b Hk Hin). }
    now rewrite (Z l1 H1), (Z l2 H2).
Qed.

(** If the threads agree on what belongs where (several loading the same image to the same place,
    for instance), every schedule leaves guest memory exactly as running them one after the other
    does, although they race. *)
Theorem C114_harmless_race : forall bld be m threads logs l m' xs,
  wf_mem m = true -> Forall (Forall task_typed) threads -> all_unbroken be threads -> threads_agree threads ->
  Forall2 (thread_stores bld be m) threads logs -> interleave logs l ->
  perform_all bld be (concat threads) m = (m', xs) ->
  forall a, replay l (gm_byte m) a = gm_byte m' a.
Proof.
  intros bld be m threads logs l m' xs Hw Ht Hu Hs HL Hl H a.
  pose proof (concat_stores _ _ _ _ _ _ _ _ HL eq_refl H) as Mc.
  destruct (perform_all_replay _ _ _ _ _ _ H) as (lc & Mc' & _ & B). rewrite (made_unique _ _ _ _ Mc' Mc) in B. rewrite B.
  apply (interleave_agree logs); [exact Hl|apply interleave_concat|].
  intros i j k k' b b' Hne Ei Ej Hi Hj.
  destruct (nth_error threads i) as [ts|] eqn:Et.
  2:{ apply nth_error_None in Et. rewrite (Forall2_len _ _ _ HL) in Et. apply nth_error_None in Et. congruence. }
  destruct (nth_error threads j) as [us|] eqn:Eu.
  2:{ apply nth_error_None in Eu. rewrite (Forall2_len _ _ _ HL) in Eu. apply nth_error_None in Eu. congruence. }
  apply (Hs i j ts us a b b' Hne Et Eu).
  - exact (logs_puts bld be m threads logs Hw Ht Hu HL i ts k a b Et Ei Hi).
  - exact (logs_puts bld be m threads logs Hw Ht Hu HL j us k' a b' Eu Ej Hj).
Qed.

(** In particular any number of threads making the same call, one whose pieces do not overlap:
    the schedule does not matter, and guest memory is as after a single call.  (The copies of the
    call have their own sources, which may differ in position and read sizes, as long as they
    succeed.) *)
Theorem C114_same_call_many_times : forall bld be m us pieces logs l,
  wf_mem m = true -> no_overlap pieces ->
  Forall (fun u => task_typed u /\ unbroken be u /\ (forall p, plan u p -> p = pieces) /\
                   exists mu xu, perform bld be u m = (mu, xu) /\ success xu) us ->
  Forall2 (thread_stores bld be m) (map (fun u => [u]) us) logs -> interleave logs l ->
  forall t m1 x1, In t us -> perform bld be t m = (m1, x1) -> forall a, replay l (gm_byte m) a = gm_byte m1 a.
Proof.
  intros bld be m us pieces logs l Hw Hno F HL Hl t m1 x1 Hin H a.
  pose proof F as F'. rewrite Forall_forall in F'. destruct (F' t Hin) as (Ht & Hu & Pt & mt & xt & Hx & Hs). rewrite H in Hx. injection Hx as <- <-.
  assert (Hne : us <> []) by (intros ->; destruct Hin). clear F'.
  destruct (C72_in_order bld be t m m1 x1 Hw Ht Hu H) as (p0 & l0 & rest & P0 & M0 & E0 & O0).
  rewrite (O0 Hs), app_nil_r in E0. rewrite (Pt _ P0) in E0. clear p0 P0 rest O0.
  destruct (C72_stores_are_all _ _ _ _ _ _ H) as (l' & M' & _ & R). rewrite (made_unique _ _ _ _ M' M0) in R. rewrite R. clear l' M'.
  assert (L : forall k, In k logs -> k = l0).
  { intros k Hk. destruct (logs_owner _ _ _ HL k Hk) as (j & ts & E1 & E2). rewrite nth_error_map in E1.
    destruct (nth_error us j) as [u|] eqn:Eu; [|discriminate]. injection E1 as <-.
    assert (E1 : nth_error (map (fun u => [u]) us) j = Some [u]) by now rewrite nth_error_map, Eu.
    destruct (Forall2_nth_error _ _ _ HL j _ k E1 E2) as (mj & xs & Hp & Hm).
    rewrite Forall_forall in F. destruct (F u (nth_error_In _ _ Eu)) as (Tu & Uu & Pu & mu & xu & Hxu & Su).
    cbn [perform_all] in Hp. rewrite Hxu in Hp. injection Hp as <- <-.
    destruct (C72_in_order bld be u m mu xu Hw Tu Uu Hxu) as (pu & lu & rest & Pl & Mu & Eq & O).
    rewrite (O Su), app_nil_r in Eq. rewrite (Pu _ Pl) in Eq. rewrite (made_unique _ _ _ _ Hm Mu). congruence. }
  assert (Un : forall b c, In (a, b) l0 -> In (a, c) l0 -> b = c).
  { intros b c Hb Hc. rewrite <- E0 in Hb, Hc. exact (apart_unique pieces a b c Hno Hb Hc). }
  assert (Inl : forall b, In (a, b) l <-> In (a, b) l0).
  { intros b. split; intros Hb.
    - destruct (interleave_in _ _ Hl _ Hb) as (k & Hk & Hi). now rewrite <- (L k Hk).
    - destruct logs as [|k logs]; [inversion HL as [E|]; destruct us; [now destruct Hne|discriminate]|].
      apply (interleave_all _ _ Hl k _ (or_introl eq_refl)). rewrite (L k (or_introl eq_refl)). exact Hb. }
  destruct (stores_at_dec a l0) as [(b & Hb)|Q].
  - rewrite (replay_only l0 (gm_byte m) a b); [|now exists b|intros c Hc; exact (Un c b Hc Hb)].
    apply replay_only; [exists b; now apply Inl|]. intros c Hc. apply Inl in Hc. exact (Un c b Hc Hb).
  - rewrite (replay_filter l), (replay_filter l0), (filter_quiet l0), (filter_quiet l); [reflexivity| |exact Q].
    intros b Hb. apply Inl in Hb. exact (Q b Hb).
Qed.

(** ** Concrete cases *)
(** Two threads load the same device tree, one from a source that hands out a byte at a time, to
    the same place; a third puts the command line elsewhere.  The threads agree, though they race. *)
Definition blob : bytes := [xd0; x0d; xfe; xed].
Definition racing : list (list task) :=
  [ [LoadDtb 0x9000 (plain_reader blob)]; [LoadDtb 0x9000 (slow_reader blob)];
    [LoadCmdline 0x8000 (mkCmdline (txt "a=1") (txt "b") 20)] ].
Lemma racing_typed : Forall (Forall task_typed) racing.
Proof.
  unfold racing. constructor; [constructor; [|constructor]|constructor; [constructor; [|constructor]|constructor; [|constructor]]].
  - apply (plain_wf blob). reflexivity.
  - apply (slow_wf blob). reflexivity.
  - constructor; [|constructor]. destruct demo_tasks_typed as (_ & T). unfold demo_tasks in T.
    repeat match goal with H : Forall task_typed (_ :: _) |- _ => inversion H; clear H; subst end. assumption.
Qed.
Lemma racing_unbroken : all_unbroken TryAccess racing.
Proof. unfold all_unbroken, racing. repeat (constructor; [repeat (constructor; [first [left; reflexivity|exact Logic.I]|]); constructor|]). constructor. Qed.
Lemma racing_dtb im a b : rd_data im = blob -> may_put [LoadDtb 0x9000 im] a b ->
  0x9000 <= a < 0x9004 /\ nth_error blob (N.to_nat (a - 0x9000)) = Some b.
Proof.
  intros D (t & p & s & [ <- |[]] & P & Hs & R & Hn). cbn [plan] in P. subst p. destruct Hs as [ <- |[]]. cbn [fst snd] in *. rewrite D in *.
  unfold in_range in R. change (lenN blob) with 4 in R. split; [lia|exact Hn].
Qed.
Lemma racing_agree : threads_agree racing.
Proof.
  assert (C : forall a b, may_put [LoadCmdline 0x8000 (mkCmdline (txt "a=1") (txt "b") 20)] a b -> 0x8000 <= a < 0x9000).
  { intros a b (t & p & s & [ <- |[]] & P & Hs & R & _). cbn [plan] in P. vm_compute in P. subst p. destruct Hs as [ <- |[]].
    unfold in_range in R. cbn [fst snd] in R. 
    match type of R with context [lenN ?x] => let v := eval vm_compute in (lenN x) in change (lenN x) with v in R end. lia. }
  intros i j ts us a b c Hne Hi Hj Hb Hc.
  destruct i as [|[|[|i]]], j as [|[|[|j]]]; try (now destruct i); try (now destruct j); try congruence;
    cbn in Hi, Hj; injection Hi as <-; injection Hj as <-.
  - apply racing_dtb in Hb as (_ & Hb); [|reflexivity]. apply racing_dtb in Hc as (_ & Hc); [|reflexivity]. congruence.
  - apply racing_dtb in Hb as (Hb & _); [|reflexivity]. apply C in Hc. lia.
  - apply racing_dtb in Hb as (_ & Hb); [|reflexivity]. apply racing_dtb in Hc as (_ & Hc); [|reflexivity]. congruence.
  - apply racing_dtb in Hb as (Hb & _); [|reflexivity]. apply C in Hc. lia.
  - apply racing_dtb in Hc as (Hc & _); [|reflexivity]. apply C in Hb. lia.
  - apply racing_dtb in Hc as (Hc & _); [|reflexivity]. apply C in Hb. lia.
Qed.
Example C114_applies : wf_mem demo_mem = true /\ Forall (Forall task_typed) racing /\ all_unbroken TryAccess racing /\ threads_agree racing /\
  ~ threads_separate racing /\
  exists logs l, Forall2 (thread_stores true TryAccess demo_mem) racing logs /\ interleave logs l /\
    firstn 5 l = [(0x9000, xd0); (0x9000, xd0); (0x9001, x0d); (0x8000, x61); (0x9001, x0d)].
Proof.
  split; [reflexivity|]. split; [exact racing_typed|]. split; [exact racing_unbroken|]. split; [exact racing_agree|]. split.
  { intros S0. unfold racing in S0.
    refine (S0 0%nat 1%nat _ _ _ _ _ eq_refl eq_refl (or_introl eq_refl) (or_introl eq_refl) 0x9000 _ _); [discriminate| |]; cbn; vm_compute; split; [discriminate|reflexivity|discriminate|reflexivity]. }
  do 2 eexists. split; [|split].
  - repeat (apply Forall2_cons; [eexists _, _; split; [vm_compute; reflexivity|reflexivity]|]). apply Forall2_nil.
  - cbn [app].
    apply (il_step []); cbn [app].
    apply (il_step [_]); cbn [app].
    apply (il_step []); cbn [app].
    apply (il_step [_; _]); cbn [app].
    apply (il_step [_]); cbn [app].
    apply interleave_concat.
  - reflexivity.
Qed.
(** Without agreement a race can leave a mixture no single call would leave: two device trees
    loaded to one place, half of each. *)
Example C114_needs_agreement :
  let threads := [ [LoadDtb 0x9000 (plain_reader [x01; x02])]; [LoadDtb 0x9000 (plain_reader [x03; x04])] ] in
  exists logs l, Forall2 (thread_stores true TryAccess demo_mem) threads logs /\ interleave logs l /\
    replay l (gm_byte demo_mem) 0x9000 = x03 /\ replay l (gm_byte demo_mem) 0x9001 = x02.
Proof.
  cbv zeta. do 2 eexists. split; [|split].
  - repeat (apply Forall2_cons; [eexists _, _; split; [vm_compute; reflexivity|reflexivity]|]). apply Forall2_nil.
  - cbn [app].
    apply (il_step []); cbn [app].
    apply (il_step [_]); cbn [app].
    apply (il_step [_]); cbn [app].
    apply (il_step []); cbn [app].
    apply il_done. repeat constructor.
  - split; reflexivity.
Qed.
(** The same call from two threads, as in [C114_same_call_many_times]. *)
Example C114_same_call_applies :
  let us := [LoadDtb 0x9000 (plain_reader blob); LoadDtb 0x9000 (slow_reader blob)] in
  Forall (fun u => task_typed u /\ unbroken TryAccess u /\ (forall p, plan u p -> p = [(0x9000, blob)]) /\
                   exists mu xu, perform true TryAccess u demo_mem = (mu, xu) /\ success xu) us /\ no_overlap [(0x9000, blob)].
Proof.
  cbv zeta. pose proof racing_typed as T. unfold racing in T.
  assert (T1 := T). inversion T1 as [|? ? A1 B1]; subst. inversion A1; subst. inversion B1 as [|? ? A2 B2]; subst. inversion A2; subst. clear T1 A1 B1 A2 B2.
  split; [|repeat constructor].
  constructor; [|constructor; [|constructor]].
  - split; [assumption|]. split; [now left|]. split; [now intros p ->|]. eexists _, _. split; [vm_compute; reflexivity|right; left; reflexivity].
  - split; [assumption|]. split; [now left|]. split; [now intros p ->|]. eexists _, _. split; [vm_compute; reflexivity|right; left; reflexivity].
Qed.
