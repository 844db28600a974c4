(** * Props_Swap: theorems for C115 (exchanging implementations of guest memory and image sources). *)
From Verif Require Import Base Base_proofs Io Mem SpecMem Mem_proofs Text Cmdline Loader Pe Source BootParams
  SpecTalk Ask SpecAsk Ask_proofs Props_Ask SpecSwap Demo_elf Props_Vmm.
Local Open Scope list_scope.

Lemma alike_conversation {W V} (R : W -> V -> Prop) wd vd w l w' : alike R wd vd -> conversation wd w l w' ->
  forall v, R w v -> exists v', conversation vd v l v' /\ R w' v'.
Proof.
  intros A C. induction C as [w|w x w1 l w' H C IH]; intros v r.
  - exists v. split; [constructor|exact r].
  - destruct (A _ _ _ _ r H) as (v1 & H1 & r1). destruct (IH v1 r1) as (v' & C' & r').
    exists v'. split; [econstructor; eassumption|exact r'].
Qed.
Lemma alike_exec {W V} (R : W -> V -> Prop) wd vd w w' v {E A} (p : prog E A) o : alike R wd vd -> R w v ->
  exec wd p w = (w', o) -> exists v', exec vd p v = (v', o) /\ R w' v'.
Proof.
  intros S0 r H. apply exec_path in H as (l & C & P). destruct (alike_conversation _ _ _ _ _ _ S0 C v r) as (v' & C' & r').
  exists v'. split; [|exact r']. apply exec_path. now exists l.
Qed.
Lemma alike_call {W V} (R : W -> V -> Prop) wd vd w w' v c r : alike R wd vd -> R w v ->
  call_runs wd c w w' r -> exists v', call_runs vd c v v' r /\ R w' v'.
Proof.
  intros S0 Hr H. destruct c; cbn [call_runs] in *; destruct H as (o & -> & H);
    destruct (alike_exec _ _ _ _ _ _ _ _ S0 Hr H) as (v' & H' & r'); exists v'; (split; [now exists o|exact r']).
Qed.

(** ** C115 *)
(** If two implementations (of guest memory, of image sources, or both) answer alike, no VMM can
    tell which of them the crate was given: any sequence of calls, with the VMM's own steps in
    between, gives the same results and ends in corresponding states. *)
Theorem C115_interchangeable : forall W V (R : W -> V -> Prop) (wd : world W) (vd : world V) own own',
  alike R wd vd -> (forall i w v, R w v -> R (own i w) (own' i v)) ->
  forall i cs w w' rs, session wd own i cs w w' rs -> forall v, R w v ->
  exists v', session vd own' i cs v v' rs /\ R w' v'.
Proof.
  intros W V R wd vd own own' S0 O i cs w w' rs H. induction H as [i w|i c cs w w1 r w' rs H1 H IH]; intros v Hr.
  - exists v. split; [constructor|exact Hr].
  - destruct (alike_call _ _ _ _ _ _ _ _ S0 (O i _ _ Hr) H1) as (v1 & H1' & r1). destruct (IH v1 r1) as (v' & H' & r').
    exists v'. split; [econstructor; eassumption|exact r'].
Qed.

(** Every session has an outcome, and only one. *)
Theorem C115_one_outcome : forall W (wd : world W) own cs i w,
  (exists w' rs, session wd own i cs w w' rs) /\
  (forall w1 rs1 w2 rs2, session wd own i cs w w1 rs1 -> session wd own i cs w w2 rs2 -> w1 = w2 /\ rs1 = rs2).
Proof.
  intros W wd own cs. assert (T : forall c w, exists w' r, call_runs wd c w w' r).
  { intros c w. destruct c; cbn [call_runs];
      match goal with |- context [exec wd ?p w] => destruct (exec wd p w) as [w' o] eqn:E end; eauto. }
  assert (D : forall c w w1 r1 w2 r2, call_runs wd c w w1 r1 -> call_runs wd c w w2 r2 -> w1 = w2 /\ r1 = r2).
  { intros c w w1 r1 w2 r2 H1 H2. destruct c; cbn [call_runs] in *; destruct H1 as (o1 & -> & H1), H2 as (o2 & -> & H2);
      rewrite H1 in H2; inversion H2; subst; auto. }
  induction cs as [|c cs IH]; intros i w; split.
  - exists w, []. constructor.
  - intros w1 rs1 w2 rs2 H1 H2. inversion H1; subst. inversion H2; subst. auto.
  - destruct (T c (own i w)) as (w1 & r & H1). destruct (IH (S i) w1) as ((w' & rs & H) & _). exists w', (r :: rs). econstructor; eassumption.
  - intros w1 rs1 w2 rs2 H1 H2. inversion H1; subst. inversion H2; subst.
    match goal with A : call_runs _ _ _ ?x ?p, B : call_runs _ _ _ ?y ?q |- _ => destruct (D _ _ _ _ _ _ A B) as (-> & ->) end.
    match goal with A : session _ _ _ _ ?x _ _ |- _ => destruct (IH (S i) x) as (_ & U) end.
    match goal with A : session _ _ _ _ _ w1 _, B : session _ _ _ _ _ w2 _ |- _ => destruct (U _ _ _ _ A B) as (-> & ->) end. auto.
Qed.

Lemma modest_conversation {W} (wd : world W) sane view w l w' : modest wd sane view -> sane w -> conversation wd w l w' ->
  sane w' /\ forall a, view w' a = view w a \/ exists x, In x l /\ covers x a.
Proof.
  intros M Hs C. revert Hs. induction C as [w|w x w1 l w' H C IH]; intros Hs; [split; [exact Hs|now left]|].
  destruct (M _ _ _ Hs H) as (S1 & K1). destruct (IH S1) as (S2 & K2). split; [exact S2|]. intros a.
  destruct (K1 a) as [E|K]; [|right; exists x; split; [now left|exact K]].
  destruct (K2 a) as [E'|(y & Hy & K)]; [left; congruence|right; exists y; split; [now right|exact K]].
Qed.
(** A call changes guest memory only inside the ranges its conversation names (and the rules of
    C99 say which these are), whatever guest memory is made of, and whether the call succeeds or not. *)
Theorem C115_changes_inside : forall W (wd : world W) sane view c w w' r, fair_world wd -> modest wd sane view -> sane w ->
  call_runs wd c w w' r ->
  exists l, conversation wd w l w' /\ call_acts c l r /\
    forall a, view w' a = view w a \/ exists x, In x l /\ covers x a.
Proof.
  intros W wd sane view c w w' r F M Hs H. apply (C99_calls W wd c w w' r F) in H as (l & C & A).
  exists l. split; [exact C|]. split; [exact A|]. exact (proj2 (modest_conversation _ _ _ _ _ _ M Hs C)).
Qed.

Lemma tracked_happens {W} (wd : world W) w d x w' : happens wd w x w' ->
  exists d1, happens (tracked wd) (w, d) x (w', d ++ d1) /\ forall a, covers x a -> dirty d1 a.
Proof.
  assert (In1 : forall b n a, in_range b n a -> dirty [(b, n)] a) by (intros b n a H; exists b, n; split; [now left|exact H]).
  destruct x as [[g|p g|z g|n g|n g|n k]|b n ok|b n ok|bs b ok|y]; cbn [happens covers]; intros H; try contradiction;
    first [exists []; rewrite app_nil_r; (split; [|intros ? K; contradiction K]) | eexists [_]; (split; [|apply In1])];
    unfold tracked, pass; cbn [on_end on_to on_by on_all on_some on_place on_fits on_write on_last fst snd]; rewrite H; reflexivity.
Qed.
Lemma tracked_conversation {W} (wd : world W) w l w' : conversation wd w l w' -> forall d,
  exists d1, conversation (tracked wd) (w, d) l (w', d ++ d1) /\ forall x a, In x l -> covers x a -> dirty d1 a.
Proof.
  induction 1 as [w|w x w1 l w' H C IH]; intros d.
  - exists []. rewrite app_nil_r. split; [constructor|intros x a []].
  - destruct (tracked_happens wd w d x w1 H) as (d1 & H1 & K1). destruct (IH (d ++ d1)) as (d2 & C2 & K2).
    exists (d1 ++ d2). rewrite app_assoc. split; [econstructor; eassumption|].
    intros y a [ <- |Hy] K.
    + destruct (K1 a K) as (b & n & Hi & R). exists b, n. split; [apply in_or_app; now left|exact R].
    + destruct (K2 y a Hy K) as (b & n & Hi & R). exists b, n. split; [apply in_or_app; now right|exact R].
Qed.
Lemma tracked_call {W} (wd : world W) sane view c w w' r d : modest wd sane view -> sane w -> call_runs wd c w w' r ->
  exists d1, call_runs (tracked wd) c (w, d) (w', d ++ d1) r /\ sane w' /\ forall a, view w' a = view w a \/ dirty d1 a.
Proof.
  intros M Hs H.
  assert (G : forall E A (p : prog E A) o, exec wd p w = (w', o) ->
    exists d1, exec (tracked wd) p (w, d) = ((w', d ++ d1), o) /\ sane w' /\ forall a, view w' a = view w a \/ dirty d1 a).
  { intros E0 A p o X. apply exec_path in X as (l & C & P). destruct (tracked_conversation wd w l w' C d) as (d1 & C1 & K).
    exists d1. split; [apply exec_path; now exists l|]. destruct (modest_conversation _ _ _ _ _ _ M Hs C) as (Hs' & Q).
    split; [exact Hs'|]. intros a. destruct (Q a) as [Qa|(x & Hx & Kx)]; [now left|right; exact (K x a Hx Kx)]. }
  destruct c; cbn [call_runs] in *; destruct H as (o & -> & H); destruct (G _ _ _ _ H) as (d1 & X & K); exists d1; (split; [now exists o|exact K]).
Qed.

(** Dirty tracking (for live migration, say) can be wrapped around any guest memory: no call
    notices, and every byte that changed during a call is in a range that was noted (bytes the VMM
    changes itself, between the calls, are its own business). *)
Theorem C115_dirty_tracking : forall W (wd : world W) sane view own, modest wd sane view ->
  (forall i w, sane w -> sane (own i w) /\ forall a, view (own i w) a = view w a) ->
  forall i cs w w' rs, sane w -> session wd own i cs w w' rs -> forall d,
  exists d1, session (tracked wd) (fun i w => (own i (fst w), snd w)) i cs (w, d) (w', d ++ d1) rs /\
    forall a, view w' a = view w a \/ dirty d1 a.
Proof.
  intros W wd sane view own M O i cs w w' rs Hs H. revert Hs. induction H as [i w|i c cs w w1 r w' rs H1 H IH]; intros Hs d.
  - exists []. rewrite app_nil_r. split; [constructor|now left].
  - destruct (O i w Hs) as (So & Vo).
    destruct (tracked_call wd sane view c (own i w) w1 r d M So H1) as (d1 & X1 & S1 & K1). destruct (IH S1 (d ++ d1)) as (d2 & X2 & K2).
    exists (d1 ++ d2). rewrite app_assoc. split; [econstructor; [exact X1|exact X2]|]. intros a.
    destruct (K2 a) as [E2|(b & n & Hi & Rg)]; [|right; exists b, n; split; [apply in_or_app; now right|exact Rg]].
    destruct (K1 a) as [E1|(b & n & Hi & Rg)]; [|right; exists b, n; split; [apply in_or_app; now left|exact Rg]].
    left. rewrite E2, E1. apply Vo.
Qed.

(** vm-memory's guest memory is such a guest memory, with any image source. *)
Lemma in_range_dec a n x : in_range a n x \/ ~ in_range a n x.
Proof. unfold in_range. lia. Qed.
Lemma gread_loop_frame {S0} (src : source S0) be fuel : no_more_than_asked src -> forall s m cur left total s' m' o,
  wf_mem m = true -> gread_loop src be fuel s m cur left total = (s', m', o) -> same_outside m m' (in_range cur left).
Proof.
  intros Pl. induction fuel as [|fuel IH]; intros s m cur left total s' m' o Hw H; cbn [gread_loop] in H.
  { injection H as <- <- <-. apply same_outside_refl. }
  destruct (find_region m cur) as [rg|] eqn:Ef; [|injection H as <- <- <-; apply same_outside_refl].
  apply find_region_some in Ef as (Hin & Hr1 & Hr2). destruct (wf_region m rg Hw Hin) as [Hlen Hend].
  set (n := N.min (r_base rg + r_len rg - cur) left) in *.
  destruct (so_read_retry src s n) as [s1 [bs|]] eqn:Er; [|injection H as <- <- <-; apply same_outside_refl].
  apply Pl in Er. set (adv := match be with TryAccess => lenN bs | GetSlices => n end) in *.
  assert (adv <= n) as Hadv by (destruct be; lia).
  assert (same_outside m (mem_store m cur bs) (in_range cur left)) as Hfr.
  { eapply same_outside_mono; [|apply mem_store_frame]. unfold in_range. intros x. lia. }
  destruct (N.eqb_spec adv 0); [injection H as <- <- <-; exact Hfr|].
  destruct (N.eqb_spec adv left); [injection H as <- <- <-; exact Hfr|].
  unfold next_addr in H. replace (cur + adv <? two64) with true in H by lia.
  apply IH in H; [|exact Hw]. eapply same_outside_trans; [exact Hfr|]. eapply same_outside_mono; [|exact H]. unfold in_range. intros x. lia.
Qed.
Lemma outside_view m m' P a : (P a \/ ~ P a) -> same_outside m m' P -> gm_byte m' a = gm_byte m a \/ P a.
Proof. intros [H|H] (_ & F); [now right|left; exact (F a H)]. Qed.
Theorem C115_vm_memory_modest : forall S0 (src : source S0) be, no_more_than_asked src ->
  modest (vm_world src be) (fun w => wf_mem (snd w) = true) (fun w => gm_byte (snd w)).
Proof.
  intros S0 src be Pl [s m] x w' Hw H. cbn [snd] in *.
  destruct x as [[g|p g|z g|n g|n g|n k]|b n ok|b n ok|bs b ok|y]; cbn [happens vm_world on_end on_to on_by on_all on_some on_place on_fits on_write on_last fst snd] in H; try contradiction.
  - destruct (so_seek_end src s) as [s1 g1]. injection H as <- _. split; [exact Hw|now left].
  - destruct (so_seek_start src s p) as [s1 g1]. injection H as <- _. split; [exact Hw|now left].
  - destruct (so_seek_cur src s z) as [s1 g1]. injection H as <- _. split; [exact Hw|now left].
  - destruct (so_read_exact src s n) as [s1 g1]. injection H as <- _. split; [exact Hw|now left].
  - destruct (so_read_volatile src s n) as [s1 g1]. injection H as <- _. split; [exact Hw|now left].
  - destruct (gread_exact_volatile_from src be s m b n) as [[s1 m1] o] eqn:G.
    assert (Fr : same_outside m m1 (in_range b n)).
    { unfold gread_exact_volatile_from in G.
      assert (K : forall s' m' o', gread_loop src be (S (so_len src s + length (regions m))) s m b n 0 = (s', m', o') -> same_outside m m' (in_range b n))
        by (intros; eapply gread_loop_frame; eassumption).
      assert (J : same_outside m m1 (in_range b n) \/ m1 = m).
      { destruct be, n; try (injection G as _ <- _; now right);
          (destruct (gread_loop src _ _ s m b _ 0) as [[s2 m2] [q|e|q]] eqn:E; injection G as _ <- _; left; exact (K _ _ _ eq_refl)). }
      destruct J as [J| -> ]; [exact J|apply same_outside_refl]. }
    assert (w' = (s1, m1)) as -> by (destruct o; injection H as <- _; reflexivity). cbn [snd].
    split; [rewrite (wf_mem_regions _ _ (proj1 Fr)); exact Hw|]. intros a. apply outside_view; [apply in_range_dec|exact Fr].
  - injection H as <- _. split; [exact Hw|now left].
  - destruct (write_slice be m bs b) as [m1 o] eqn:G. destruct (write_slice_frame _ _ _ _ _ _ Hw G) as (Fr & _).
    assert (w' = (s, m1)) as -> by (destruct o; injection H as <- _; reflexivity). cbn [snd].
    split; [rewrite (wf_mem_regions _ _ (proj1 Fr)); exact Hw|]. intros a. apply outside_view; [apply in_range_dec|exact Fr].
  - injection H as <- _. split; [exact Hw|now left].
Qed.

(** ** Concrete cases *)
(** Tracking is an exchange of implementations that answer alike. *)
Example C115_alike_applies : forall W (wd : world W), alike (fun w v => w = fst v) wd (tracked wd).
Proof.
  intros W wd w [w0 d] x w' -> H. cbn [fst] in H. destruct (tracked_happens wd w0 d x w' H) as (d1 & H1 & _).
  exists (w', d ++ d1). split; [exact H1|reflexivity].
Qed.
(** A device tree from a slow source, then a command line that does not fit, then one that does:
    three results, and the two ranges written noted. *)
Definition swap_world := tracked (vm_world reader_source TryAccess).
Definition small_line : cmdline := mkCmdline (txt "a=1") (txt "b") 20.
Definition swap_calls : list call := [LoadDtb 0x9000; LoadCmdline true 0x17ffffff small_line; LoadCmdline true 0x8000 small_line].
Definition swap_start := ((slow_reader [xd0; x0d; xfe; xed], demo_mem), @nil (N * N)).
Definition swap_1 := fst (exec swap_world (dtb_prog 0x9000) swap_start).
Definition swap_2 := fst (exec swap_world (cmdline_prog true 0x17ffffff small_line) swap_1).
Definition swap_3 := fst (exec swap_world (cmdline_prog true 0x8000 small_line) swap_2).
Lemma pair_is {A B} (x : A * B) b : snd x = b -> x = (fst x, b).
Proof. destruct x. cbn. now intros ->. Qed.
Example C115_applies : no_more_than_asked reader_source /\ wf_mem demo_mem = true /\
  session swap_world (fun _ w => w) 0 swap_calls swap_start swap_3 [Blob (Ok tt); Blob (Err CommandLineOverflow); Blob (Ok tt)] /\
  snd swap_3 = [(0x9000, 4); (0x8000, 9)] /\ gm_byte (snd (fst swap_3)) 0x9003 = xed /\ gm_byte (snd (fst swap_3)) 0x8000 = x61.
Proof.
  split; [intros s n s' bs H; exact (proj1 (read_volatile_some _ _ _ _ H))|]. split; [reflexivity|]. split.
  { unfold swap_calls.
    apply se_call with (w1 := swap_1); [eexists; split; [reflexivity|apply pair_is; vm_compute; reflexivity]|].
    apply se_call with (w1 := swap_2); [eexists; split; [reflexivity|apply pair_is; vm_compute; reflexivity]|].
    apply se_call with (w1 := swap_3); [eexists; split; [reflexivity|apply pair_is; vm_compute; reflexivity]|].
    apply se_end. }
  split; [vm_compute; reflexivity|]. split; vm_compute; reflexivity.
Qed.
