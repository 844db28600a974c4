(** * Props_GuestMap: the memories the claims are about are the ones vm-memory builds (C123). *)
From Verif Require Import Base Mem SpecMem Mem_proofs GuestMap SpecGuestMap SpecVmm.

Definition reg (p : N * N) : region := mkRegion (fst p) (snd p).

Lemma two64_pow : two64 = 2 ^ 64. Proof. reflexivity. Qed.

Lemma from_each_ok ranges rs : from_each ranges = Ok rs <->
  rs = map reg ranges /\ (forall a n, In (a, n) ranges -> 0 < n /\ a + n < 2 ^ 64).
Proof.
  rewrite <- two64_pow. revert rs. induction ranges as [|[a n] rest IH]; intros rs; cbn [from_each map].
  - split; [intros H; injection H as <-; split; [reflexivity|intros ? ? []]|intros (-> & _); reflexivity].
  - unfold from_range, checked_add. destruct (n =? 0) eqn:En.
    { apply N.eqb_eq in En. split; [discriminate|]. intros (_ & H). specialize (H a n (or_introl eq_refl)). lia. }
    apply N.eqb_neq in En. destruct (a + n <? two64) eqn:Ea.
    2:{ apply N.ltb_ge in Ea. split; [discriminate|]. intros (_ & H). specialize (H a n (or_introl eq_refl)). lia. }
    apply N.ltb_lt in Ea. cbn [obind]. destruct (from_each rest) as [l|e|p] eqn:El; cbn [obind].
    + destruct (proj1 (IH l) eq_refl) as (-> & Hr). split.
      * intros H. injection H as <-. split; [reflexivity|]. intros b k [Hx|Hx]; [injection Hx as <- <-; lia|now apply Hr].
      * intros (-> & _). reflexivity.
    + split; [discriminate|]. intros (-> & H). assert (@Err map_error _ e = Ok (map reg rest)); [|discriminate].
      apply IH. split; [reflexivity|]. intros b k Hb. apply H. now right.
    + split; [discriminate|]. intros (-> & H). assert (@Panic map_error _ p = Ok (map reg rest)); [|discriminate].
      apply IH. split; [reflexivity|]. intros b k Hb. apply H. now right.
Qed.

Lemma in_order_cons a n rest : in_order ((a, n) :: rest) <-> (forall b k, In (b, k) rest -> a + n <= b) /\ in_order rest.
Proof.
  split.
  - intros H. split.
    + intros b k Hb. apply In_nth_error in Hb as (j & Hj). now apply (H 0%nat (S j) a n b k); [lia| |].
    + intros i j a' n' b k Hij Hi Hj. apply (H (S i) (S j) a' n' b k); [lia| |]; assumption.
  - intros (H1 & H2) i j a' n' b k Hij Hi Hj. destruct j as [|j]; [lia|]. cbn in Hj. destruct i as [|i].
    + cbn in Hi. injection Hi as <- <-. apply (H1 b k). eapply nth_error_In, Hj.
    + apply (H2 i j a' n' b k); [lia| |]; assumption.
Qed.

Lemma check_cons a n b k rest : check_neighbours (map reg ((a, n) :: (b, k) :: rest)) =
  if b <? a then Err UnsortedMemoryRegions else if b <=? a + (n - 1) then Err MemoryRegionOverlap
  else check_neighbours (map reg ((b, k) :: rest)).
Proof. reflexivity. Qed.

Lemma check_ok ranges : (forall a n, In (a, n) ranges -> 0 < n /\ a + n < 2 ^ 64) ->
  (check_neighbours (map reg ranges) = Ok tt <-> in_order ranges).
Proof.
  induction ranges as [|[a n] rest IH]; intros Hw.
  { split; [|reflexivity]. intros _ i j a n b k _ Hi. destruct i; discriminate. }
  rewrite in_order_cons. assert (Hn : 0 < n) by (apply (Hw a n); now left).
  assert (Hr : forall b k, In (b, k) rest -> 0 < k /\ b + k < 2 ^ 64) by (intros b k Hb; apply Hw; now right).
  specialize (IH Hr). destruct rest as [|[b k] rest'].
  { split; [|reflexivity]. intros _. split; [intros ? ? []|]. intros i j a' n' b k _ Hi. destruct i; discriminate. }
  rewrite check_cons.
  destruct (b <? a) eqn:E1.
  { apply N.ltb_lt in E1. split; [discriminate|]. intros (H & _). specialize (H b k (or_introl eq_refl)). lia. }
  destruct (b <=? a + (n - 1)) eqn:E2.
  { apply N.leb_le in E2. split; [discriminate|]. intros (H & _). specialize (H b k (or_introl eq_refl)). lia. }
  apply N.leb_gt in E2. rewrite IH. split; [|tauto]. intros Ho. split; [|exact Ho].
  apply in_order_cons in Ho as (Ho & _). intros c q [Hc|Hc]; [injection Hc as <- <-; lia|].
  specialize (Ho c q Hc). lia.
Qed.

(** ** C123: building *)
(** [from_ranges] accepts exactly the lists of ranges that are non-empty, have no empty range, stay
    below 2^64 and are in order without overlaps. *)
Theorem C123_accepted : forall ranges, (exists m, from_ranges ranges = Ok m) <-> acceptable ranges.
Proof.
  intros ranges. unfold from_ranges, acceptable. split.
  - intros (m & H). destruct (from_each ranges) as [rs|e|p] eqn:E; try discriminate.
    apply from_each_ok in E as (-> & Hw). cbn [obind] in H. destruct ranges as [|x l]; [discriminate|].
    split; [discriminate|]. split; [exact Hw|]. apply check_ok; [exact Hw|]. cbn [map] in *.
    destruct (check_neighbours (reg x :: map reg l)) as [[]|e|p]; try discriminate. reflexivity.
  - intros (Hn & Hw & Ho). assert (E : from_each ranges = Ok (map reg ranges)) by (apply from_each_ok; auto).
    rewrite E. cbn [obind]. apply check_ok in Ho; [|exact Hw]. destruct ranges as [|x l]; [contradiction|].
    cbn [map] in *. rewrite Ho. cbn [obind]. eauto.
Qed.

Lemma built ranges m : from_ranges ranges = Ok m -> m = mkMem (map reg ranges) (fun _ => x00).
Proof.
  unfold from_ranges. destruct (from_each ranges) as [rs|e|p] eqn:E; try discriminate.
  apply from_each_ok in E as (-> & _). cbn [obind]. destruct ranges as [|x l]; [discriminate|]. cbn [map].
  destruct (check_neighbours (reg x :: map reg l)); try discriminate. cbn [obind]. congruence.
Qed.

Lemma in_reg r ranges : In r (map reg ranges) <-> In (r_base r, r_len r) ranges.
Proof.
  rewrite in_map_iff. split.
  - intros ([a n] & <- & H). exact H.
  - intros H. exists (r_base r, r_len r). split; [now destruct r|exact H].
Qed.

(** Which memories there are: exactly these addresses are memory, every one is in exactly one region,
    every byte is zero, and the hypothesis of all other claims ([wf_mem]) holds. *)
Theorem C123_built : forall ranges m, from_ranges ranges = Ok m ->
  wf_mem m = true /\
  (forall x, backed m x <-> exists a n, In (a, n) ranges /\ a <= x < a + n) /\
  (forall x r r', In r (regions m) -> In r' (regions m) -> in_range (r_base r) (r_len r) x -> in_range (r_base r') (r_len r') x -> r = r') /\
  (forall x, gm_byte m x = x00).
Proof.
  intros ranges m H. assert (Ha : acceptable ranges) by (apply C123_accepted; eauto). destruct Ha as (_ & Hw & Ho).
  rewrite (built _ _ H). cbn [wf_mem regions mkMem gm_byte]. split; [|split; [|split]].
  - unfold wf_mem. cbn [regions mkMem]. apply forallb_forall. intros r Hr. apply in_reg in Hr. apply Hw in Hr.
    rewrite two64_pow. apply andb_true_intro. split; apply N.ltb_lt; tauto.
  - intros x. unfold backed. cbn [regions mkMem]. split.
    + intros (r & Hr & A & B). apply in_reg in Hr. exists (r_base r), (r_len r). auto.
    + intros (a & n & Hr & A). exists (mkRegion a n). split; [apply in_reg; exact Hr|exact A].
  - intros x r r' Hr Hr' (A & B) (A' & B'). apply in_reg in Hr, Hr'.
    apply In_nth_error in Hr as (i & Hi). apply In_nth_error in Hr' as (j & Hj).
    destruct (Nat.lt_trichotomy i j) as [L|[L|L]].
    + pose proof (Ho i j _ _ _ _ L Hi Hj). lia.
    + subst j. rewrite Hi in Hj. injection Hj as E1 E2. destruct r, r'; cbn in *. congruence.
    + pose proof (Ho j i _ _ _ _ L Hj Hi). lia.
  - reflexivity.
Qed.

(** Which guest memories satisfy the hypothesis of the other claims, whoever built them: those whose
    regions are not empty and end below 2^64 (a region of a single byte included). *)
Theorem C123_well_formed : forall m, wf_mem m = true <->
  forall a n, In (mkRegion a n) (regions m) -> 0 < n /\ a + n < 2 ^ 64.
Proof.
  intros m. unfold wf_mem. rewrite forallb_forall. rewrite <- two64_pow. split.
  - intros H a n Hr. apply H in Hr. cbn in Hr. apply andb_prop in Hr as (A & B). apply N.ltb_lt in A, B. auto.
  - intros H [a n] Hr. apply H in Hr. cbn. apply andb_true_intro. split; apply N.ltb_lt; tauto.
Qed.

(** A refusal names something that is wrong with the ranges. *)
Theorem C123_refused : forall ranges e, from_ranges ranges = Err e ->
  match e with
  | CannotMap => exists a, In (a, 0) ranges
  | InvalidGuestRegion => exists a n, In (a, n) ranges /\ 2 ^ 64 <= a + n
  | NoMemoryRegion => ranges = []
  | UnsortedMemoryRegions => exists i a n b k, nth_error ranges i = Some (a, n) /\ nth_error ranges (S i) = Some (b, k) /\ b < a
  | MemoryRegionOverlap => exists i a n b k, nth_error ranges i = Some (a, n) /\ nth_error ranges (S i) = Some (b, k) /\ a <= b < a + n
  end.
Proof.
  intros ranges e. unfold from_ranges. destruct (from_each ranges) as [rs|e'|p] eqn:E; cbn [obind]; [| |discriminate].
  - apply from_each_ok in E as (-> & Hw). destruct ranges as [|x l]; [intros H; now injection H as <-|].
    cbn [map]. intros H. assert (Hc : check_neighbours (map reg (x :: l)) = Err e).
    { cbn [map]. destruct (check_neighbours (reg x :: map reg l)); cbn [obind] in H; congruence. }
    clear H. revert Hw Hc. generalize (x :: l) as rs. clear x l. induction rs as [|[a n] rest IH]; intros Hw Hc; [discriminate|].
    assert (Hn : 0 < n) by (apply (Hw a n); now left).
    destruct rest as [|[b k] rest']; [discriminate|].
    rewrite check_cons in Hc.
    destruct (b <? a) eqn:E1.
    { injection Hc as <-. apply N.ltb_lt in E1. exists 0%nat, a, n, b, k. auto. }
    apply N.ltb_ge in E1. destruct (b <=? a + (n - 1)) eqn:E2.
    { injection Hc as <-. apply N.leb_le in E2. exists 0%nat, a, n, b, k. repeat split; try reflexivity; lia. }
    assert (Hw' : forall b' k', In (b', k') ((b, k) :: rest') -> 0 < k' /\ b' + k' < 2 ^ 64) by (intros ? ? Hb; apply Hw; now right).
    specialize (IH Hw' Hc). destruct e.
    + destruct IH as (c & Hc'). exists c. now right.
    + destruct IH as (c & q & Hc' & L). exists c, q. split; [now right|exact L].
    + discriminate.
    + destruct IH as (i & R). exists (S i). exact R.
    + destruct IH as (i & R). exists (S i). exact R.
  - intros H. injection H as <-. revert e' E. induction ranges as [|[a n] rest IH]; intros e' E; [discriminate|].
    cbn [from_each] in E. unfold from_range, checked_add in E. destruct (n =? 0) eqn:En; cbn [obind] in E.
    { injection E as <-. apply N.eqb_eq in En. subst n. exists a. now left. }
    destruct (a + n <? two64) eqn:Ea; cbn [obind] in E.
    2:{ injection E as <-. apply N.ltb_ge in Ea. exists a, n. split; [now left|]. now rewrite <- two64_pow. }
    destruct (from_each rest) as [l|e|p] eqn:El; cbn [obind] in E; try discriminate. injection E as ->.
    specialize (IH e' eq_refl). destruct e'.
    + destruct IH as (c & Hc'). exists c. now right.
    + destruct IH as (c & q & Hc' & L). exists c, q. split; [now right|exact L].
    + subst rest. discriminate.
    + destruct IH as (i & R). exists (S i). exact R.
    + destruct IH as (i & R). exists (S i). exact R.
Qed.

(** It never panics, and is one or the other. *)
Theorem C123_total : forall ranges p, from_ranges ranges <> Panic p.
Proof.
  intros ranges p. assert (A : forall rs q, check_neighbours rs <> Panic q).
  { intros rs q. induction rs as [|r rest IH]; [discriminate|]. destruct rest as [|r' rest]; [discriminate|]. cbn [check_neighbours].
    destruct (r_base r' <? r_base r); [discriminate|]. destruct (r_base r' <=? region_last r); [discriminate|exact IH]. }
  assert (B : forall l q, from_each l <> Panic q).
  { intros l q. induction l as [|[a n] rest IH]; [discriminate|]. cbn [from_each]. unfold from_range.
    destruct (n =? 0); [discriminate|]. destruct (checked_add a n); [|discriminate]. cbn [obind].
    destruct (from_each rest); cbn [obind]; congruence. }
  unfold from_ranges. destruct (from_each ranges) as [rs|e|q] eqn:E; cbn [obind]; [|discriminate|now apply B in E].
  destruct rs as [|r rs]; [discriminate|]. destruct (check_neighbours (r :: rs)) as [u|e|q] eqn:Ec; cbn [obind]; try discriminate.
  now apply A in Ec.
Qed.

(** ** C123: the search *)
Lemma nth_err (l : list N) i : (i < length l)%nat -> nth_error l i = Some (nth i l 0).
Proof. apply nth_error_nth'. Qed.

Lemma halve_spec fuel : forall keys k base size,
  increasing keys -> (size <= fuel)%nat -> (1 <= size)%nat -> (base + size <= length keys)%nat ->
  (forall j x, (j < base)%nat -> nth_error keys j = Some x -> x <= k) ->
  (base = 0%nat \/ nth base keys 0 <= k) ->
  (forall j x, (base + size <= j)%nat -> nth_error keys j = Some x -> k < x) ->
  let r := halve fuel keys k base size in
  (r < length keys)%nat /\ (r = 0%nat \/ nth r keys 0 <= k) /\ (forall j x, (r < j)%nat -> nth_error keys j = Some x -> k < x).
Proof.
  induction fuel as [|fuel IH]; intros keys k base size Hi Hf H1 Hl Hlo Hb Hhi; [lia|]. cbn [halve].
  destruct (size <=? 1)%nat eqn:Es.
  { apply Nat.leb_le in Es. split; [lia|]. split; [exact Hb|]. intros j x Hj Hx. apply (Hhi j x); [lia|exact Hx]. }
  apply Nat.leb_gt in Es. pose proof (Nat.div2_odd size) as Hd. assert (Hh : (1 <= Nat.div2 size < size)%nat).
  { destruct (Nat.odd size); cbn [Nat.b2n] in Hd; lia. }
  set (h := Nat.div2 size) in *. set (mid := (base + h)%nat).
  assert (Hm : nth_error keys mid = Some (nth mid keys 0)) by (apply nth_err; unfold mid; lia).
  destruct (k <? nth mid keys 0) eqn:Ek.
  - apply N.ltb_lt in Ek. apply IH; try assumption; try lia.
    intros j x Hj Hx. destruct (Nat.eq_dec j mid) as [->|Hne]; [rewrite Hm in Hx; injection Hx as <-; lia|].
    destruct (le_lt_dec mid j) as [L|L].
    + pose proof (Hi mid j _ _ ltac:(lia) Hm Hx). lia.
    + assert (Hs : size = (h + h + Nat.b2n (Nat.odd size))%nat) by lia. destruct (Nat.odd size); cbn [Nat.b2n] in Hs; unfold mid in *; lia.
  - apply N.ltb_ge in Ek. apply IH; try assumption; try (unfold mid; lia).
    + intros j x Hj Hx. pose proof (Hi j mid _ _ Hj Hx Hm). lia.
    + right. exact Ek.
    + intros j x Hj Hx. apply (Hhi j x); [unfold mid in Hj; lia|exact Hx].
Qed.

(** The search that core implements keeps its contract, for sorted lists of every length. *)
Theorem C123_core_search : search_contract binary_search.
Proof.
  intros keys k Hi. unfold binary_search. destruct keys as [|x0 l] eqn:E.
  { split; [cbn; lia|]. split; intros j x _ Hx; destruct j; discriminate. }
  rewrite <- E in *. assert (Hl : (1 <= length keys)%nat) by (rewrite E; cbn; lia). clear E x0 l.
  destruct (halve_spec (length keys) keys k 0 (length keys) Hi) as (R & Hb & Hhi); try lia.
  { intros j x Hj Hx. assert (nth_error keys j <> None) by congruence. apply nth_error_Some in H. lia. }
  set (r := halve (length keys) keys k 0 (length keys)) in *. pose proof (nth_err keys r R) as Hr.
  destruct (nth r keys 0 =? k) eqn:E1; [apply N.eqb_eq in E1; congruence|]. apply N.eqb_neq in E1.
  destruct (nth r keys 0 <? k) eqn:E2.
  - apply N.ltb_lt in E2. split; [lia|]. split.
    + intros j x Hj Hx. destruct (Nat.eq_dec j r) as [->|Hne]; [rewrite Hr in Hx; injection Hx as <-; exact E2|].
      pose proof (Hi j r _ _ ltac:(lia) Hx Hr). lia.
    + intros j x Hj Hx. apply (Hhi j x); [lia|exact Hx].
  - apply N.ltb_ge in E2. destruct Hb as [Hb|Hb]; [|lia]. split; [lia|]. split.
    + intros j x Hj _. lia.
    + intros j x Hj Hx. destruct (Nat.eq_dec j r) as [->|Hne]; [rewrite Hr in Hx; injection Hx as <-; lia|].
      apply (Hhi j x); [lia|exact Hx].
Qed.

Lemma find_only m a r : (forall x r r', In r (regions m) -> In r' (regions m) -> in_range (r_base r) (r_len r) x -> in_range (r_base r') (r_len r') x -> r = r') ->
  In r (regions m) -> in_range (r_base r) (r_len r) a -> find_region m a = Some r.
Proof.
  intros U Hr R. destruct (find_region m a) as [r'|] eqn:E.
  - apply find_region_some in E as (Hin & A & B). f_equal. apply (U a); auto. split; assumption.
  - apply find_region_none in E. exfalso. apply E. exists r. destruct R. auto.
Qed.

(** Finding the region of an address by any search that keeps the contract, as vm-memory does, gives
    what this development uses (the first region of the table that has the address), and so the
    region that has it, if there is one. *)
Theorem C123_lookup : forall search ranges m a, search_contract search -> from_ranges ranges = Ok m ->
  search_region search m a = find_region m a /\
  (forall r, search_region search m a = Some r <-> In r (regions m) /\ in_range (r_base r) (r_len r) a).
Proof.
  intros search ranges m a Hs H. pose proof (C123_built _ _ H) as (_ & _ & U & _).
  assert (Hacc : acceptable ranges) by (apply C123_accepted; eauto). destruct Hacc as (_ & Hw & Ho).
  assert (Hreg : regions m = map reg ranges) by (rewrite (built _ _ H); reflexivity).
  assert (At_ranges : forall i x, nth_error (regions m) i = Some x -> nth_error ranges i = Some (r_base x, r_len x)).
  { intros i x. rewrite Hreg, nth_error_map. destruct (nth_error ranges i) as [[b n]|]; [|discriminate].
    cbn. intros E. injection E as <-. reflexivity. }
  assert (Hi : increasing (map r_base (regions m))).
  { intros i j x y Hij Hx Hy. rewrite nth_error_map in Hx, Hy.
    destruct (nth_error (regions m) i) as [r|] eqn:Er; [|discriminate]. destruct (nth_error (regions m) j) as [r'|] eqn:Er'; [|discriminate].
    cbn in Hx, Hy. injection Hx as <-. injection Hy as <-. apply At_ranges in Er, Er'.
    pose proof (Ho i j _ _ _ _ Hij Er Er'). apply nth_error_In in Er. apply Hw in Er. lia. }
  assert (Main : search_region search m a = find_region m a).
  { unfold search_region. pose proof (Hs _ a Hi) as C. destruct (search (map r_base (regions m)) a) as [i|i].
    - rewrite nth_error_map in C. destruct (nth_error (regions m) i) as [r|] eqn:Er; [|discriminate]. cbn in C. injection C as C.
      symmetry. apply find_only; [exact U|eapply nth_error_In, Er|]. apply At_ranges, nth_error_In, Hw in Er. unfold in_range. lia.
    - destruct C as (Hl & Hlo & Hhi). rewrite map_length in Hl.
      assert (Hno : forall j r, nth_error (regions m) j = Some r -> in_range (r_base r) (r_len r) a -> S j = i).
      { intros j r Hj (A & B). destruct (Nat.lt_trichotomy (S j) i) as [L|[L|L]]; [|exact L|].
        - assert (E : exists r', nth_error (regions m) (S j) = Some r') by (destruct (nth_error (regions m) (S j)) eqn:E; [eauto|apply nth_error_None in E; lia]).
          destruct E as (r' & Er'). pose proof (Hlo (S j) (r_base r')) as X. rewrite nth_error_map, Er' in X. specialize (X L eq_refl).
          pose proof (Ho j (S j) _ _ _ _ ltac:(lia) (At_ranges _ _ Hj) (At_ranges _ _ Er')). lia.
        - pose proof (Hhi j (r_base r)) as X. rewrite nth_error_map, Hj in X. specialize (X ltac:(lia) eq_refl). lia. }
      destruct (0 <? i)%nat eqn:Ei.
      + apply Nat.ltb_lt in Ei. destruct (nth_error (regions m) (i - 1)) as [r|] eqn:Er; [|apply nth_error_None in Er; lia].
        pose proof (Hlo (i - 1)%nat (r_base r)) as X. rewrite nth_error_map, Er in X. specialize (X ltac:(lia) eq_refl).
        pose proof Er as Ew. apply At_ranges, nth_error_In, Hw in Ew. unfold region_last.
        destruct (a <=? r_base r + (r_len r - 1)) eqn:Ea.
        * apply N.leb_le in Ea. symmetry. apply find_only; [exact U|eapply nth_error_In, Er|]. unfold in_range. lia.
        * apply N.leb_gt in Ea. symmetry. apply find_region_none. intros (r' & Hr' & A & B). apply In_nth_error in Hr' as (j & Hj).
          assert (S j = i) by (apply (Hno j r' Hj); split; assumption). replace (i - 1)%nat with j in Er by lia.
          rewrite Er in Hj. injection Hj as <-. lia.
      + apply Nat.ltb_ge in Ei. symmetry. apply find_region_none. intros (r' & Hr' & A & B). apply In_nth_error in Hr' as (j & Hj).
        assert (S j = i) by (apply (Hno j r' Hj); split; assumption). lia. }
  split; [exact Main|]. intros r. rewrite Main. split.
  - intros E. apply find_region_some in E as (A & B & C). split; [exact A|split; assumption].
  - intros (A & B). now apply find_only.
Qed.

(** The end of memory that the device tree and boot parameters are checked against ([last_addr]) is
    the last byte of the last range. *)
Theorem C123_last : forall ranges a n m, from_ranges (ranges ++ [(a, n)]) = Ok m -> last_addr m = a + n - 1.
Proof.
  intros ranges a n m H. assert (Hacc : acceptable (ranges ++ [(a, n)])) by (apply C123_accepted; eauto).
  destruct Hacc as (_ & Hw & Ho). rewrite (built _ _ H). unfold last_addr. cbn [regions mkMem].
  rewrite map_app, fold_left_app. cbn [map fold_left reg fst snd r_base r_len].
  assert (Hlt : forall b k, In (b, k) ranges -> b + k <= a).
  { intros b k Hb. apply In_nth_error in Hb as (i & Hi). apply (Ho i (length ranges) b k a n).
    - apply nth_error_Some. congruence.
    - rewrite nth_error_app1; [exact Hi|]. apply nth_error_Some. congruence.
    - rewrite nth_error_app2, Nat.sub_diag by lia. reflexivity. }
  assert (Hn : 0 < n) by (apply (Hw a n), in_or_app; right; now left).
  assert (F : forall l acc, acc <= a -> (forall b k, In (b, k) l -> b + k <= a) ->
    fold_left (fun acc r => N.max acc (r_base r + r_len r - 1)) (map reg l) acc <= a).
  { induction l as [|[b k] l IH]; intros acc Ha Hl; [exact Ha|]. cbn [map fold_left reg fst snd r_base r_len]. apply IH.
    - specialize (Hl b k (or_introl eq_refl)). lia.
    - intros b' k' Hb. apply Hl. now right. }
  specialize (F ranges 0 ltac:(lia) Hlt). lia.
Qed.

(** How the same addresses are cut into ranges does not matter (with C61: to no sequence of calls). *)
Theorem C123_division : forall ranges1 ranges2 m1 m2,
  from_ranges ranges1 = Ok m1 -> from_ranges ranges2 = Ok m2 ->
  (forall x, (exists a n, In (a, n) ranges1 /\ a <= x < a + n) <-> (exists a n, In (a, n) ranges2 /\ a <= x < a + n)) ->
  same_guest m1 m2 /\ last_addr m1 = last_addr m2.
Proof.
  intros ranges1 ranges2 m1 m2 H1 H2 Hx.
  pose proof (C123_built _ _ H1) as (W1 & B1 & _ & Z1). pose proof (C123_built _ _ H2) as (W2 & B2 & _ & Z2).
  assert (Hb : forall x, backed m1 x <-> backed m2 x) by (intros x; rewrite B1, B2; apply Hx).
  split; [split; [exact Hb|intros x _; rewrite Z1, Z2; reflexivity]|].
  assert (L : forall ranges m, from_ranges ranges = Ok m -> backed m (last_addr m) /\ (forall x, backed m x -> x <= last_addr m)).
  { clear. intros ranges m H. pose proof (C123_built _ _ H) as (_ & B & _ & _). assert (Ha : acceptable ranges) by (apply C123_accepted; eauto).
    destruct Ha as (Hne & Hw & Ho). destruct (exists_last Hne) as (l & [a n] & E). subst ranges. rewrite (C123_last _ _ _ _ H).
    assert (Hl : In (a, n) (l ++ [(a, n)])) by (apply in_or_app; right; now left). pose proof (Hw _ _ Hl) as (Hn & _). split.
    - apply B. exists a, n. split; [exact Hl|lia].
    - intros x Hx. apply B in Hx as (b & k & Hb & Hr). apply in_app_or in Hb as [Hb|[Hb|[]]]; [|injection Hb as <- <-; lia].
      apply In_nth_error in Hb as (i & Hi). assert (i < length l)%nat by (apply nth_error_Some; congruence).
      assert (b + k <= a); [|lia]. apply (Ho i (length l) b k a n); [assumption| |].
      + rewrite nth_error_app1 by assumption. exact Hi.
      + rewrite nth_error_app2, Nat.sub_diag by lia. reflexivity. }
  destruct (L _ _ H1) as (A1 & M1). destruct (L _ _ H2) as (A2 & M2). apply Hb in A1. apply Hb in A2. apply M1 in A2. apply M2 in A1. lia.
Qed.

(** A memory with a hole, as on a PC, a single byte just below 2^64 and neighbours that touch; and one wrong list for each refusal. *)
Definition demo_ranges : list (N * N) := [(0, 0xa0000); (0x100000, 0xbff00000); (0xc0000000, 0x1000); (0xfffffffffffffffe, 1)].
Example C123_applies : exists m, from_ranges demo_ranges = Ok m /\ last_addr m = 0xfffffffffffffffe /\
  search_region binary_search m 0x9ffff = Some (mkRegion 0 0xa0000) /\ search_region binary_search m 0xa0000 = None /\
  search_region binary_search m 0xfffffffffffffffe = Some (mkRegion 0xfffffffffffffffe 1) /\
  from_ranges [(0, 0x1000); (0x2000, 0)] = Err CannotMap /\ from_ranges [(0xffffffffffffffff, 1)] = Err InvalidGuestRegion /\
  from_ranges [] = Err NoMemoryRegion /\ from_ranges [(0x1000, 1); (0, 1)] = Err UnsortedMemoryRegions /\
  from_ranges [(0, 0x1001); (0x1000, 1)] = Err MemoryRegionOverlap.
Proof. exists (mkMem (map reg demo_ranges) (fun _ => x00)). repeat split; vm_compute; reflexivity. Qed.
Example C123_division_applies : exists m1 m2, from_ranges [(0, 0x2000)] = Ok m1 /\ from_ranges [(0, 0x1000); (0x1000, 0x1000)] = Ok m2 /\
  (forall x, (exists a n, In (a, n) [(0, 0x2000)] /\ a <= x < a + n) <-> (exists a n, In (a, n) [(0, 0x1000); (0x1000, 0x1000)] /\ a <= x < a + n)).
Proof.
  eexists _, _. split; [vm_compute; reflexivity|]. split; [vm_compute; reflexivity|]. intros x. split.
  - intros (a & n & [E|[]] & L). injection E as <- <-. destruct (N.lt_ge_cases x 0x1000).
    + exists 0, 0x1000. split; [now left|lia].
    + exists 0x1000, 0x1000. split; [right; now left|lia].
  - intros (a & n & [E|[E|[]]] & L); injection E as <- <-; exists 0, 0x2000; (split; [now left|lia]).
Qed.
