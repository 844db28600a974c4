(** * C72, C73: crash points and schedules.

    What guest memory looks like while a call is running, when a call is stopped in the middle,
    and when several threads load at the same time. *)
From Verif Require Import Base Base_proofs Io Mem SpecMem Mem_proofs Layout SpecFile File_proofs Text Cmdline Loader Elf SpecElf
  BzImage SpecBz Pe SpecPe BootParams Configurators SpecVmm Vmm_proofs Props_Vmm SpecTrace Trace_proofs Demo_elf.

(** ** C72: at every moment of a call *)
(** The stores a call makes account for everything it does to guest memory: replaying them on the
    original contents gives the contents it leaves, whatever it reports. *)
Theorem C72_stores_are_all : forall bld be t m m' x,
  perform bld be t m = (m', x) ->
  exists l, made m m' l /\ regions m' = regions m /\ forall a, gm_byte m' a = replay l (gm_byte m) a.
Proof.
  intros bld be t m m' x H. destruct (perform_blind bld be t (regions m)) as (y & segs & B).
  destruct (B m eq_refl) as (m1 & E & S). rewrite H in E. inversion E; subst m1 y.
  destruct (stored_replay _ _ _ S) as (l & M & R). exists l. split; [exact M|]. split; [exact (proj1 (proj1 S))|exact R].
Qed.

(** The call works through the planned pieces in order, each from its first to its last byte: the
    stores made so far are the first ones of the plan, all of them if the call succeeds. *)
Theorem C72_in_order : forall bld be t m m' x,
  wf_mem m = true -> task_typed t -> unbroken be t -> perform bld be t m = (m', x) ->
  exists pieces done todo, plan t pieces /\ made m m' done /\ all_stores pieces = done ++ todo /\ (success x -> todo = []).
Proof.
  intros bld be t m m' x Hw Ht Hu H. destruct (perform_leaves _ _ _ _ _ _ Hw Ht Hu H) as (pieces & P & l & rest & M & E & O).
  exists pieces, l, rest. auto.
Qed.

Lemma replay_at l : forall (f : N -> byte) a, replay l f a = f a \/ In (a, replay l f a) l.
Proof.
  induction l as [|[c b] l IH]; intros f a; [now left|].
  change (replay ((c, b) :: l) f a) with (replay l (fun x => if x =? c then b else f x) a).
  destruct (IH (fun x => if x =? c then b else f x) a) as [E|E]; [|right; now right].
  rewrite E. clear E. destruct (N.eqb_spec a c) as [Hc|Hc]; [right; left; now rewrite Hc|now left].
Qed.
Lemma replay_stored l : forall (f : N -> byte) a b, In (a, b) l -> In (a, replay l f a) l.
Proof.
  induction l as [|[c b0] l IH]; intros f a b H; [destruct H|].
  change (replay ((c, b0) :: l) f a) with (replay l (fun x => if x =? c then b0 else f x) a).
  destruct (replay_at l (fun x => if x =? c then b0 else f x) a) as [E|E]; [|now right].
  destruct H as [H|H]; [|right; exact (IH _ _ _ H)]. injection H as -> ->. rewrite N.eqb_refl in E. rewrite E. now left.
Qed.
Lemma replay_stored_any l : forall (f g : N -> byte) a b, In (a, b) l -> replay l g a = replay l f a.
Proof.
  induction l as [|[c b0] l IH]; intros f g a b H; [destruct H|].
  change (replay ((c, b0) :: l) ?h a) with (replay l (fun x => if x =? c then b0 else h x) a).
  destruct H as [H|H]; [|exact (IH _ _ _ _ H)]. injection H as -> ->. apply replay_ext. now rewrite N.eqb_refl.
Qed.
Lemma byte_other (c : byte) : exists d, d <> c.
Proof. destruct (Byte.eqb c x00) eqn:E; [exists x01|exists x00]; intros <-; discriminate. Qed.
Lemma in_stores bs : forall a c (b : byte), In (c, b) (stores a bs) -> in_range a (lenN bs) c /\ nth_error bs (N.to_nat (c - a)) = Some b.
Proof.
  unfold in_range. induction bs as [|b0 bs IH]; intros a c b H; [destruct H|]. cbn [stores] in H. rewrite lenN_cons. destruct H as [H|H].
  - injection H as -> ->. rewrite N.sub_diag. split; [lia|reflexivity].
  - apply IH in H as (R & H). split; [lia|]. replace (N.to_nat (c - a)) with (S (N.to_nat (c - (a + 1)))) by lia. exact H.
Qed.
Lemma in_all_stores pieces a b : In (a, b) (all_stores pieces) <->
  exists s, In s pieces /\ in_range (fst s) (lenN (snd s)) a /\ nth_error (snd s) (N.to_nat (a - fst s)) = Some b.
Proof.
  rewrite all_stores_eq, in_flat_map. split.
  - intros (s & Hs & Hi). exists s. split; [exact Hs|]. now apply in_stores.
  - intros (s & Hs & R & Hn). exists s. split; [exact Hs|]. clear Hs. destruct s as [c bs]. cbn [fst snd] in *.
    revert c R Hn. induction bs as [|b0 bs IH]; intros c R Hn; [now destruct (N.to_nat (a - c))|].
    cbn [stores]. unfold in_range in *. rewrite lenN_cons in R. destruct (N.eq_dec a c) as [->|Hne].
    + rewrite N.sub_diag in Hn. left. now injection Hn as ->.
    + right. apply IH; [lia|]. replace (N.to_nat (a - c)) with (S (N.to_nat (a - (c + 1)))) in Hn by lia. exact Hn.
Qed.

(** Stop the call anywhere (a crash, a signal, another thread looking), with whichever of its
    stores then visible, and in whatever order they became visible: every byte of guest memory is
    the original one, or the one the plan puts there; bytes outside the plan are the original
    ones. *)
Theorem C72_any_moment : forall bld be t m m' x,
  wf_mem m = true -> task_typed t -> unbroken be t -> perform bld be t m = (m', x) ->
  exists pieces, plan t pieces /\ forall all visible, made m m' all -> incl visible all -> forall a,
    replay visible (gm_byte m) a = gm_byte m a \/
    exists s, In s pieces /\ in_range (fst s) (lenN (snd s)) a /\
      nth_error (snd s) (N.to_nat (a - fst s)) = Some (replay visible (gm_byte m) a).
Proof.
  intros bld be t m m' x Hw Ht Hu H. destruct (C72_in_order _ _ _ _ _ _ Hw Ht Hu H) as (pieces & l & rest & P & M & E & _).
  exists pieces. split; [exact P|]. intros all vis Ma Hi a. rewrite (made_unique _ _ _ _ Ma M) in Hi.
  destruct (replay_at vis (gm_byte m) a) as [Ea|Ea]; [now left|right].
  apply in_all_stores. rewrite E. apply in_or_app. left. now apply Hi.
Qed.

Lemma apart_unique pieces a b1 b2 : no_overlap pieces -> In (a, b1) (all_stores pieces) -> In (a, b2) (all_stores pieces) -> b1 = b2.
Proof.
  unfold no_overlap. induction 1 as [|s pieces F H IH]; [intros []|].
  change (all_stores (s :: pieces)) with (piece_stores s ++ all_stores pieces). rewrite piece_stores_eq'.
  assert (Cross : forall c c', In (a, c) (stores (fst s) (snd s)) -> In (a, c') (all_stores pieces) -> False).
  { intros c c' H1 H2. apply in_stores in H1 as (R1 & _). apply in_all_stores in H2 as (u & Hu & R2 & _).
    rewrite Forall_forall in F. exact (F u Hu a R1 R2). }
  intros H1 H2. apply in_app_or in H1. apply in_app_or in H2.
  destruct H1 as [H1|H1], H2 as [H2|H2].
  - apply in_stores in H1 as (_ & H1). apply in_stores in H2 as (_ & H2). congruence.
  - exfalso. eauto.
  - exfalso. eauto.
  - auto.
Qed.

(** In particular, when the planned pieces do not overlap (always so for anything but an ELF image
    or a PVH setup), no third value is ever visible: at every moment every byte is the original
    one or the one the call leaves if it succeeds. *)
Theorem C72_old_or_final : forall bld be t m m' x,
  wf_mem m = true -> task_typed t -> unbroken be t -> (forall pieces, plan t pieces -> no_overlap pieces) ->
  perform bld be t m = (m', x) -> success x ->
  forall all visible, made m m' all -> incl visible all -> forall a,
    replay visible (gm_byte m) a = gm_byte m a \/ replay visible (gm_byte m) a = gm_byte m' a.
Proof.
  intros bld be t m m' x Hw Ht Hu Hn H Hs all vis Ma Hi a.
  destruct (C72_in_order _ _ _ _ _ _ Hw Ht Hu H) as (pieces & l & rest & P & M & E & O).
  rewrite (O Hs), app_nil_r in E. rewrite (made_unique _ _ _ _ Ma M) in Hi. subst l.
  destruct (C72_stores_are_all _ _ _ _ _ _ H) as (l & M' & _ & R). rewrite (made_unique _ _ _ _ M' M) in R.
  destruct (replay_at vis (gm_byte m) a) as [Ea|Ea]; [now left|right]. apply Hi in Ea. rewrite R.
  eapply apart_unique; [exact (Hn _ P)|exact Ea|]. exact (replay_stored _ _ _ _ Ea).
Qed.

(** ** C73: schedules *)
(** What a call reports and which stores it makes depends on the layout of guest memory, not on its
    contents: no call reads guest memory back.  So other writers, before or during the call,
    cannot influence it. *)
Theorem C73_deaf_to_contents : forall bld be t m1 m2 m1' m2' x1 x2 l1 l2,
  regions m1 = regions m2 -> perform bld be t m1 = (m1', x1) -> perform bld be t m2 = (m2', x2) ->
  made m1 m1' l1 -> made m2 m2' l2 -> x1 = x2 /\ l1 = l2.
Proof.
  intros bld be t m1 m2 m1' m2' x1 x2 l1 l2 R H1 H2 M1 M2. destruct (perform_blind bld be t (regions m2)) as (y & segs & B).
  destruct (B m1 R) as (n1 & E1 & _ & S1). destruct (B m2 eq_refl) as (n2 & E2 & _ & S2).
  rewrite H1 in E1. rewrite H2 in E2. inversion E1; subst. inversion E2; subst. split; [reflexivity|].
  rewrite (made_unique _ _ _ _ M1 S1). now rewrite (made_unique _ _ _ _ M2 S2).
Qed.

(** A call stores nothing outside the addresses it may touch, for every source and outcome. *)
Theorem C73_stores_in_bounds : forall bld be t m m' x l a b,
  wf_mem m = true -> task_typed t -> perform bld be t m = (m', x) -> made m m' l -> ~ touches t a -> ~ In (a, b) l.
Proof.
  intros bld be t m m' x l a b Hw Ht H M T Hi.
  (* run the call on contents that differ at [a] from every byte it stores there last *)
  assert (K : forall f, exists c, replay l f a = c /\ forall g, replay l g a = c).
  { intros f. exists (replay l f a). split; [reflexivity|]. intros g. exact (replay_stored_any _ _ _ _ _ Hi). }
  destruct (K (gm_byte m)) as (c & _ & Kc).
  destruct (byte_other c) as (d & Hd).
  set (m2 := mkMem (regions m) (fun _ => d)).
  destruct (perform bld be t m2) as [m2' x2] eqn:H2.
  destruct (C72_stores_are_all _ _ _ _ _ _ H2) as (l2 & M2 & _ & R2).
  destruct (C73_deaf_to_contents _ _ _ m m2 _ _ _ _ _ _ eq_refl H H2 M M2) as (_ & <-).
  assert (Hw2 : wf_mem m2 = true) by exact Hw.
  destruct (C56_frame _ _ _ _ _ _ Hw2 Ht H2) as ((_ & F) & _).
  specialize (F a T). rewrite R2, Kc in F. cbn in F. congruence.
Qed.

(** *** Mixing lists of stores *)
Definition at_addr (a : N) (s : N * byte) : bool := fst s =? a.
Lemma replay_filter l : forall (f : N -> byte) a, replay l f a = replay (filter (at_addr a) l) f a.
Proof.
  induction l as [|[c b] l IH]; intros f a; [reflexivity|].
  change (replay ((c, b) :: l) f a) with (replay l (fun x => if x =? c then b else f x) a). rewrite IH.
  cbn [filter at_addr fst]. unfold at_addr at 2. cbn [fst]. rewrite N.eqb_sym. destruct (N.eqb_spec a c) as [Hc|Hc].
  - reflexivity.
  - apply replay_ext. now rewrite (proj2 (N.eqb_neq a c) Hc).
Qed.
Lemma filter_quiet l a : (forall b, ~ In (a, b) l) -> filter (at_addr a) l = [].
Proof.
  induction l as [|[c b] l IH]; intros H; [reflexivity|]. cbn [filter]. unfold at_addr at 1. cbn [fst].
  destruct (N.eqb_spec c a) as [Hc|Hc]; [|apply IH; intros b' Hb; apply (H b'); now right].
  subst c. exfalso. apply (H b). now left.
Qed.
Lemma interleave_filter {A} (p : A -> bool) ls l : interleave ls l -> interleave (map (filter p) ls) (filter p l).
Proof.
  induction 1 as [ls F|before x xs after l H IH].
  - apply il_done. rewrite Forall_map. eapply Forall_impl; [|exact F]. intros k ->. reflexivity.
  - rewrite map_app in *. cbn [map filter] in *. destruct (p x); [now apply il_step|exact IH].
Qed.
Lemma interleave_one {A} (ls : list (list A)) l : interleave ls l ->
  forall i own, nth_error ls i = Some own -> (forall j k, j <> i -> nth_error ls j = Some k -> k = []) -> l = own.
Proof.
  induction 1 as [ls F|before x xs after l H IH]; intros i own Hi Hj.
  - rewrite Forall_forall in F. symmetry. apply F. exact (nth_error_In _ _ Hi).
  - assert (i = length before) as ->.
    { destruct (Nat.eq_dec (length before) i) as [E|E]; [now symmetry|]. exfalso.
      assert (En : nth_error (before ++ (x :: xs) :: after) (length before) = Some (x :: xs)).
      { rewrite nth_error_app2, Nat.sub_diag by lia. reflexivity. }
      specialize (Hj _ _ E En). discriminate. }
    rewrite nth_error_app2, Nat.sub_diag in Hi by lia. injection Hi as <-. f_equal.
    apply (IH (length before)).
    + rewrite nth_error_app2, Nat.sub_diag by lia. reflexivity.
    + intros j k Hne Hk. apply (Hj j k Hne). destruct (Nat.lt_ge_cases j (length before)) as [Hlt|Hge].
      * rewrite nth_error_app1 in Hk |- * by lia. exact Hk.
      * rewrite nth_error_app2 in Hk |- * by lia. destruct (j - length before)%nat as [|n] eqn:En; [lia|]. exact Hk.
Qed.
Lemma interleave_none {A} (ls : list (list A)) l : interleave ls l -> (forall k, In k ls -> k = []) -> l = [].
Proof.
  intros H. destruct H as [ls F|before x xs after l H]; [reflexivity|]. intros Hk. 
  assert (E : x :: xs = []); [|discriminate]. apply Hk. apply in_or_app. right. now left.
Qed.
(** Only one of the lists stores at [a]: the mixture does to [a] what this list alone does. *)
Lemma interleave_at ls l i own (f : N -> byte) a : interleave ls l -> nth_error ls i = Some own ->
  (forall j k b, j <> i -> nth_error ls j = Some k -> ~ In (a, b) k) -> replay l f a = replay own f a.
Proof.
  intros H Hi Hj. rewrite (replay_filter l), (replay_filter own). f_equal.
  apply (interleave_filter (at_addr a)) in H. eapply interleave_one; [exact H| |].
  - now rewrite nth_error_map, Hi.
  - intros j k Hne Hk. rewrite nth_error_map in Hk. destruct (nth_error ls j) as [k0|] eqn:E; [|discriminate].
    injection Hk as <-. apply filter_quiet. intros b. exact (Hj j k0 b Hne E).
Qed.

Lemma Forall2_nth_error {A B} (R : A -> B -> Prop) l1 l2 : Forall2 R l1 l2 ->
  forall i x y, nth_error l1 i = Some x -> nth_error l2 i = Some y -> R x y.
Proof.
  induction 1 as [|x y l1 l2 H F IH]; intros [|i] u v Hu Hv; cbn in *; try discriminate.
  - now injection Hu as <-; injection Hv as <-.
  - eauto.
Qed.

Lemma Forall2_len {A B} (R : A -> B -> Prop) l1 l2 : Forall2 R l1 l2 -> length l1 = length l2.
Proof. induction 1; cbn; congruence. Qed.

(** *** One thread *)
Lemma perform_all_replay bld be ts : forall m m' xs, perform_all bld be ts m = (m', xs) ->
  exists l, made m m' l /\ regions m' = regions m /\ forall a, gm_byte m' a = replay l (gm_byte m) a.
Proof.
  induction ts as [|t ts IH]; intros m m' xs H; cbn [perform_all] in H.
  { inversion H; subst. exists []. split; [apply made_refl|]. split; reflexivity. }
  destruct (perform bld be t m) as [m1 x] eqn:E1. destruct (perform_all bld be ts m1) as [m2 xs2] eqn:E2. inversion H; subst m' xs.
  destruct (C72_stores_are_all _ _ _ _ _ _ E1) as (l1 & M1 & R1 & B1). destruct (IH _ _ _ E2) as (l2 & M2 & R2 & B2).
  exists (l1 ++ l2). split; [exact (made_trans _ _ _ _ _ M1 M2)|]. split; [congruence|].
  intros a. rewrite B2, replay_app. now apply replay_ext.
Qed.
Lemma perform_all_bounds bld be ts : forall m m' xs l a b, wf_mem m = true -> Forall task_typed ts ->
  perform_all bld be ts m = (m', xs) -> made m m' l -> ~ thread_touches ts a -> ~ In (a, b) l.
Proof.
  induction ts as [|t ts IH]; intros m m' xs l a b Hw Ht H M T Hi; cbn [perform_all] in H.
  { inversion H; subst. rewrite (made_unique _ _ _ _ M (made_refl _)) in Hi. destruct Hi. }
  destruct (perform bld be t m) as [m1 x] eqn:E1. destruct (perform_all bld be ts m1) as [m2 xs2] eqn:E2. inversion H; subst m' xs.
  destruct (C72_stores_are_all _ _ _ _ _ _ E1) as (l1 & M1 & R1 & B1). destruct (perform_all_replay _ _ _ _ _ _ E2) as (l2 & M2 & R2 & B2).
  rewrite (made_unique _ _ _ _ M (made_trans _ _ _ _ _ M1 M2)) in Hi. inversion Ht; subst.
  apply in_app_or in Hi as [Hi|Hi]; revert Hi.
  - eapply C73_stores_in_bounds; [exact Hw|eassumption|exact E1|exact M1|]. intros Hx. apply T. exists t. split; [now left|exact Hx].
  - eapply IH; [|eassumption|exact E2|exact M2|].
    + now rewrite (wf_mem_regions _ _ R1).
    + intros (u & Hu & Hx). apply T. exists u. split; [now right|exact Hx].
Qed.

(** Threads load at the same time, each into parts of guest memory no other thread touches; and
    something else ([noise], say a device or the VMM itself) writes elsewhere meanwhile.  However
    the single-byte stores of all of them interleave, the part every thread works on ends up as
    if this thread had run alone, and the rest as if only the others had written. *)
Theorem C73_interleaving : forall bld be m threads logs noise l,
  wf_mem m = true -> Forall (Forall task_typed) threads -> threads_separate threads ->
  (forall ts a b, In ts threads -> thread_touches ts a -> ~ In (a, b) noise) ->
  Forall2 (thread_stores bld be m) threads logs ->
  interleave (noise :: logs) l ->
  (forall ts mi xs a, In ts threads -> perform_all bld be ts m = (mi, xs) -> thread_touches ts a ->
     replay l (gm_byte m) a = gm_byte mi a) /\
  (forall a, (forall ts, In ts threads -> ~ thread_touches ts a) ->
     replay l (gm_byte m) a = replay noise (gm_byte m) a).
Proof.
  intros bld be m threads logs noise l Hw Ht Hs Hn HL Hl.
  assert (Bound : forall j ts lj a b, nth_error threads j = Some ts -> nth_error logs j = Some lj -> ~ thread_touches ts a -> ~ In (a, b) lj).
  { intros j ts lj a b E1 E2 T. destruct (Forall2_nth_error _ _ _ HL j ts lj E1 E2) as (mj & xs & Hp & Hm).
    eapply perform_all_bounds; [exact Hw| |exact Hp|exact Hm|exact T].
    rewrite Forall_forall in Ht. apply Ht. exact (nth_error_In _ _ E1). }
  assert (Len : length threads = length logs) by exact (Forall2_len _ _ _ HL).
  assert (Other : forall j lj, nth_error logs j = Some lj -> exists ts, nth_error threads j = Some ts).
  { intros j lj E. destruct (nth_error threads j) as [ts|] eqn:Et; [eauto|]. apply nth_error_None in Et.
    assert (j < length logs)%nat by (apply nth_error_Some; congruence). lia. }
  split.
  - intros ts mi xs a Hin Hp T. apply In_nth_error in Hin as (i & Ei).
    destruct (nth_error logs i) as [li|] eqn:El.
    2:{ apply nth_error_None in El. assert (i < length threads)%nat by (apply nth_error_Some; congruence). lia. }
    destruct (Forall2_nth_error _ _ _ HL i ts li Ei El) as (mi' & xs' & Hp' & Hm). rewrite Hp in Hp'. inversion Hp'; subst mi' xs'.
    destruct (perform_all_replay _ _ _ _ _ _ Hp) as (l' & Hm' & _ & B). rewrite (made_unique _ _ _ _ Hm' Hm) in B. rewrite B.
    apply (interleave_at (noise :: logs) l (S i) li); [exact Hl|exact El|].
    intros [|j] k b Hne Hk.
    + injection Hk as <-. exact (Hn ts a b (nth_error_In _ _ Ei) T).
    + cbn in Hk. destruct (Other _ _ Hk) as (us & Eu). eapply Bound; [exact Eu|exact Hk|].
      intros (u & Hu & Tu). destruct T as (t & Hti & Tt). assert (i <> j) as Hij by congruence.
      exact (Hs i j ts us t u Hij Ei Eu Hti Hu a Tt Tu).
  - intros a Hno. apply (interleave_at (noise :: logs) l 0 noise); [exact Hl|reflexivity|].
    intros [|j] k b Hne Hk; [congruence|]. cbn in Hk. destruct (Other _ _ Hk) as (us & Eu).
    eapply Bound; [exact Eu|exact Hk|]. apply Hno. exact (nth_error_In _ _ Eu).
Qed.

Lemma interleave_concat {A} (ls : list (list A)) : interleave ls (concat ls).
Proof.
  assert (G : forall (l : list A) before after k, Forall (fun x => x = []) before -> interleave (before ++ [] :: after) k ->
    interleave (before ++ l :: after) (l ++ k)).
  { induction l as [|x l IH]; intros before after k F H; [exact H|]. cbn [app]. apply il_step. now apply IH. }
  assert (H : forall (ls : list (list A)) before, Forall (fun x => x = []) before -> interleave (before ++ ls) (concat ls)).
  { clear ls. induction ls as [|l ls IH]; intros before F; cbn [concat].
    - apply il_done. now rewrite app_nil_r.
    - apply G; [exact F|]. change ([] :: ls) with ([[]] ++ ls). rewrite app_assoc. apply IH. apply Forall_app. split; [exact F|]. now repeat constructor. }
  exact (H ls [] (Forall_nil _)).
Qed.
Lemma stores_at_dec a (l : list (N * byte)) : {exists b, In (a, b) l} + {forall b, ~ In (a, b) l}.
Proof.
  induction l as [|[c b] l IH]; [right; intros b []|].
  destruct (N.eq_dec c a) as [->|Hc]; [left; exists b; now left|].
  destruct IH as [IH|IH]; [left; destruct IH as (b' & H); exists b'; now right|right].
  intros b' [H|H]; [injection H as -> _; congruence|exact (IH _ H)].
Qed.
Lemma owner_dec a (ls : list (list (N * byte))) :
  (exists i k b, nth_error ls i = Some k /\ In (a, b) k) \/ (forall k b, In k ls -> ~ In (a, b) k).
Proof.
  induction ls as [|l ls IH]; [right; intros k b []|].
  destruct (stores_at_dec a l) as [(b & H)|H]; [left; exists 0%nat, l, b; auto|].
  destruct IH as [(i & k & b & E & Hi)|IH]; [left; exists (S i), k, b; auto|right].
  intros k b [<-|Hk]; [apply H|exact (IH k b Hk)].
Qed.
(** Lists of stores to different addresses: the order of mixing does not matter. *)
Lemma interleave_same ls l1 l2 (f : N -> byte) a : interleave ls l1 -> interleave ls l2 ->
  (forall i j k k' b b', i <> j -> nth_error ls i = Some k -> nth_error ls j = Some k' -> In (a, b) k -> ~ In (a, b') k') ->
  replay l1 f a = replay l2 f a.
Proof.
  intros H1 H2 D. destruct (owner_dec a ls) as [(i & k & b & E & Hi)|Q].
  - rewrite (interleave_at _ _ i k f a H1 E), (interleave_at _ _ i k f a H2 E); [reflexivity| |];
      intros j k' b' Hne E'; exact (D i j k k' b b' (not_eq_sym Hne) E E' Hi).
  - assert (Z : forall l, interleave ls l -> replay l f a = f a).
    { intros l H. rewrite replay_filter. apply (interleave_filter (at_addr a)) in H.
      rewrite (interleave_none _ _ H); [reflexivity|]. intros k Hk. apply in_map_iff in Hk as (k0 & <- & Hk). apply filter_quiet.
      intros b. exact (Q k0 b Hk). }
    now rewrite (Z l1 H1), (Z l2 H2).
Qed.

Lemma perform_all_deaf bld be ts : forall m1 m2 m1' m2' xs1 xs2 l1 l2,
  regions m1 = regions m2 -> perform_all bld be ts m1 = (m1', xs1) -> perform_all bld be ts m2 = (m2', xs2) ->
  made m1 m1' l1 -> made m2 m2' l2 -> xs1 = xs2 /\ l1 = l2.
Proof.
  induction ts as [|t ts IH]; intros m1 m2 m1' m2' xs1 xs2 l1 l2 R H1 H2 M1 M2; cbn [perform_all] in *.
  { inversion H1; subst. inversion H2; subst. split; [reflexivity|].
    now rewrite (made_unique _ _ _ _ M1 (made_refl _)), (made_unique _ _ _ _ M2 (made_refl _)). }
  destruct (perform bld be t m1) as [n1 x1] eqn:E1. destruct (perform_all bld be ts n1) as [p1 ys1] eqn:F1.
  destruct (perform bld be t m2) as [n2 x2] eqn:E2. destruct (perform_all bld be ts n2) as [p2 ys2] eqn:F2.
  inversion H1; subst m1' xs1. inversion H2; subst m2' xs2.
  destruct (C72_stores_are_all _ _ _ _ _ _ E1) as (k1 & K1 & R1 & _). destruct (C72_stores_are_all _ _ _ _ _ _ E2) as (k2 & K2 & R2 & _).
  destruct (perform_all_replay _ _ _ _ _ _ F1) as (j1 & J1 & _ & _). destruct (perform_all_replay _ _ _ _ _ _ F2) as (j2 & J2 & _ & _).
  destruct (C73_deaf_to_contents _ _ _ _ _ _ _ _ _ _ _ R E1 E2 K1 K2) as (-> & ->).
  assert (Rn : regions n1 = regions n2) by congruence.
  destruct (IH _ _ _ _ _ _ _ _ Rn F1 F2 J1 J2) as (-> & ->). split; [reflexivity|].
  rewrite (made_unique _ _ _ _ M1 (made_trans _ _ _ _ _ K1 J1)). now rewrite (made_unique _ _ _ _ M2 (made_trans _ _ _ _ _ K2 J2)).
Qed.

Lemma concat_stores bld be m : forall threads logs m1 m' xs, Forall2 (thread_stores bld be m) threads logs ->
  regions m1 = regions m -> perform_all bld be (concat threads) m1 = (m', xs) -> made m1 m' (concat logs).
Proof.
  intros threads logs m1 m' xs F. revert m1 m' xs. induction F as [|ts l threads logs (mi & ys & Hp & Hm) F IH]; intros m1 m' xs R H; cbn [concat] in *.
  { inversion H; subst. apply made_refl. }
  rewrite perform_all_app in H. destruct (perform_all bld be ts m1) as [m2 x2] eqn:E1.
  destruct (perform_all bld be (concat threads) m2) as [m3 x3] eqn:E2. inversion H; subst m' xs.
  destruct (perform_all_replay _ _ _ _ _ _ E1) as (l1 & M1 & R1 & _).
  destruct (perform_all_deaf _ _ _ _ _ _ _ _ _ _ _ R E1 Hp M1 Hm) as (_ & ->).
  eapply made_trans; [exact M1|]. eapply IH; [|exact E2]. congruence.
Qed.

(** Without other writers: any schedule of the threads' stores leaves guest memory exactly as
    running the threads one after the other does. *)
Theorem C73_schedule_irrelevant : forall bld be m threads logs l m' xs,
  wf_mem m = true -> Forall (Forall task_typed) threads -> threads_separate threads ->
  Forall2 (thread_stores bld be m) threads logs -> interleave logs l ->
  perform_all bld be (concat threads) m = (m', xs) ->
  forall a, replay l (gm_byte m) a = gm_byte m' a.
Proof.
  intros bld be m threads logs l m' xs Hw Ht Hs HL Hl H a.
  pose proof (concat_stores _ _ _ _ _ _ _ _ HL eq_refl H) as Mc.
  destruct (perform_all_replay _ _ _ _ _ _ H) as (lc & Mc' & _ & B). rewrite (made_unique _ _ _ _ Mc' Mc) in B. rewrite B.
  apply (interleave_same logs); [exact Hl|apply interleave_concat|].
  intros i j k k' b b' Hne Ei Ej Hi Hj.
  assert (Len : length threads = length logs) by exact (Forall2_len _ _ _ HL).
  assert (Other : forall j lj, nth_error logs j = Some lj -> exists ts, nth_error threads j = Some ts).
  { intros j0 lj E. destruct (nth_error threads j0) as [ts|] eqn:Et; [eauto|]. apply nth_error_None in Et.
    assert (j0 < length logs)%nat by (apply nth_error_Some; congruence). lia. }
  assert (Bound : forall j ts lj b, nth_error threads j = Some ts -> nth_error logs j = Some lj -> ~ thread_touches ts a -> ~ In (a, b) lj).
  { intros j0 ts lj b0 E1 E2 T. destruct (Forall2_nth_error _ _ _ HL j0 ts lj E1 E2) as (mj & ys & Hp & Hm).
    eapply perform_all_bounds; [exact Hw| |exact Hp|exact Hm|exact T].
    rewrite Forall_forall in Ht. apply Ht. exact (nth_error_In _ _ E1). }
  destruct (Other _ _ Ei) as (ts & Et). destruct (Other _ _ Ej) as (us & Eu).
  refine (Bound i ts k b Et Ei _ Hi). intros (t & Hti & Tt).
  refine (Bound j us k' b' Eu Ej _ Hj). intros (u & Hui & Tu).
  exact (Hs i j ts us t u Hne Et Eu Hti Hui a Tt Tu).
Qed.

(** ** Concrete cases *)
(** C72: an ELF load whose source fails at its 11th operation meets the hypotheses; it is
    stopped in the middle: 8 of the 12 planned stores made. *)
Definition broken_elf : task := LoadElf None None (mkReader demo_elf 0 (2 ^ 63 - 1) (fun _ => 2 ^ 63) (fun _ i => Nat.eqb i 10) 0).
Example C72_applies : wf_mem demo_mem = true /\ task_typed broken_elf /\ unbroken GetSlices broken_elf /\
  exists m1 e pieces todo, perform true GetSlices broken_elf demo_mem = (m1, Loaded (Err e)) /\
    plan broken_elf pieces /\ length (all_stores pieces) = 12%nat /\ length (gm_log m1) = 8%nat /\
    all_stores pieces = gm_log m1 ++ todo /\ nth_error (gm_log m1) 5 = Some (0x1000005, x16).
Proof.
  split; [reflexivity|]. split; [apply (plain_wf demo_elf); reflexivity|]. split.
  { right. intros (i & Hi). cbn in Hi. apply (N.lt_asymm _ _ Hi). vm_compute. reflexivity. }
  eexists _, _, _, _. split; [vm_compute; reflexivity|]. split; [reflexivity|].
  split; [vm_compute; reflexivity|]. split; [reflexivity|]. split; vm_compute; reflexivity.
Qed.
(** Non-overlapping pieces: the premise of [C72_old_or_final]. *)
Example C72_old_or_final_applies : forall be addr im, be = TryAccess \/ ~ short_reads im ->
  unbroken be (LoadDtb addr im) /\ forall pieces, plan (LoadDtb addr im) pieces -> no_overlap pieces.
Proof. intros be addr im H. split; [exact H|]. intros pieces ->. repeat constructor. Qed.
(** Why [unbroken]: filling guest memory slice by slice from a source that returns one byte at a
    time puts a byte at 0x1002 which is neither the original one nor the one planned there (the
    call then reports an error). *)
Example C72_needs_unbroken :
  let m := mkMem [mkRegion 0x1000 2; mkRegion 0x1002 14] (fun _ => xff) in
  let dripping := mkReader [xd0; x0d; xfe; xed] 0 (2 ^ 63 - 1) (fun _ => 1) (fun _ _ => false) 0 in
  let t := LoadDtb 0x1000 dripping in
  exists m', perform true GetSlices t m = (m', Done (Err (LPe ReadDtbImage))) /\
    plan t [(0x1000, [xd0; x0d; xfe; xed])] /\ gm_byte m 0x1002 = xff /\ gm_byte m' 0x1002 = x0d /\ short_reads dripping.
Proof.
  cbv zeta. eexists. split; [vm_compute; reflexivity|]. split; [reflexivity|]. split; [reflexivity|]. split; [vm_compute; reflexivity|].
  exists 0%nat. vm_compute. reflexivity.
Qed.

(** C73: three threads (kernel and command line; device tree; boot parameters) and a device
    writing to 0x20000 meet the hypotheses; one schedule is shown. *)
Definition demo_threads : list (list task) :=
  [ [LoadElf None None (plain_reader demo_elf); LoadCmdline 0x8000 (mkCmdline (txt "a=1") (txt "b") 20)];
    [LoadDtb 0x9000 (slow_reader [xd0; x0d; xfe; xed])];
    [WriteLinux demo_hdr; WritePvh demo_pvh] ].
Example demo_threads_separate : threads_separate demo_threads.
Proof.
  pose proof demo_elf_area as A. destruct demo_other_areas as (B & C & D & E).
  intros i j ts us t u Hne Hi Hj Ht Hu x Hx Hy.
  destruct i as [|[|[|i]]], j as [|[|[|j]]]; try (now destruct i); try (now destruct j); try congruence;
    cbn in Hi, Hj; injection Hi as <-; injection Hj as <-; cbn [In] in Ht, Hu;
    repeat match goal with H : _ \/ _ |- _ => destruct H as [ <- | H ] | H : False |- _ => destruct H end;
    repeat match goal with
       | H : touches (LoadElf _ _ _) _ |- _ => apply A in H
       | H : touches (LoadCmdline _ _) _ |- _ => apply B in H
       | H : touches (LoadDtb _ _) _ |- _ => apply C in H
       | H : touches (WriteLinux _) _ |- _ => apply D in H
       | H : touches (WritePvh _) _ |- _ => apply E in H
       end; lia.
Qed.
Example C73_applies : wf_mem demo_mem = true /\ Forall (Forall task_typed) demo_threads /\ threads_separate demo_threads /\
  (forall ts a b, In ts demo_threads -> thread_touches ts a -> ~ In (a, b) [(0x20000, xaa); (0x20000, xbb)]) /\
  exists logs l, Forall2 (thread_stores true TryAccess demo_mem) demo_threads logs /\
    map (@length _) logs = [21%nat; 4%nat; 7%nat] /\
    interleave ([(0x20000, xaa); (0x20000, xbb)] :: logs) l /\
    firstn 6 l = [(0x20000, xaa); (0x1000000, x11); (0x9000, xd0); (0xa000, x01); (0x20000, xbb); (0x1000001, x12)].
Proof.
  split; [reflexivity|]. split.
  { destruct demo_tasks_typed as (_ & T). unfold demo_tasks in T.
    repeat match goal with H : Forall task_typed (_ :: _) |- _ => inversion H; clear H; subst end.
    repeat (constructor; try assumption). }
  split; [exact demo_threads_separate|]. split.
  { pose proof demo_elf_area as A. destruct demo_other_areas as (B & C & D & E).
    intros ts a b Hts (t & Ht & T) Hi.
    assert (a = 0x20000) as -> by (destruct Hi as [Hi|[Hi|[]]]; injection Hi; auto).
    unfold demo_threads in Hts. cbn [In] in Hts.
    repeat match goal with H : _ \/ _ |- _ => destruct H as [ <- | H ] | H : False |- _ => destruct H end; cbn [In] in Ht;
    repeat match goal with H : _ \/ _ |- _ => destruct H as [ <- | H ] | H : False |- _ => destruct H end;
    first [apply A in T|apply B in T|apply C in T|apply D in T|apply E in T]; lia. }
  do 2 eexists. split; [|split; [|split]].
  - repeat (apply Forall2_cons; [eexists _, _; split; [vm_compute; reflexivity|reflexivity]|]). apply Forall2_nil.
  - reflexivity.
  - cbn [app].
    apply (il_step []); cbn [app].
    apply (il_step [_]); cbn [app].
    apply (il_step [_; _]); cbn [app].
    apply (il_step [_; _; _]); cbn [app].
    apply (il_step []); cbn [app].
    apply interleave_concat.
  - reflexivity.
Qed.
