(** * Kernel_proofs: facts about the kernel's reader of SpecKernel.v on texts built from pieces. *)
From Coq Require Import Lia.
From Verif Require Import Base Base_proofs Text Cmdline SpecCmdline Text_proofs Cmdline_proofs Cmdline_proofs2 Cmdline_proofs3 SpecKernel.

(** Inside quotes after [s]? *)
Definition inq (q : bool) (s : text) : bool := fold_left (fun q c => if c =? 34 then negb q else q) s q.

Lemma kspace_32 : kspace 32 = true. Proof. reflexivity. Qed.
Lemma kspace_34 : kspace 34 = false. Proof. reflexivity. Qed.
Lemma kspace_quote c : kspace c = true -> c =? 34 = false.
Proof. intro H. destruct (c =? 34) eqn:E; [|reflexivity]. apply N.eqb_eq in E. subst. discriminate. Qed.

Lemma inq_app q a b : inq q (a ++ b) = inq (inq q a) b.
Proof. apply fold_left_app. Qed.

Lemma word_split q s w r : word q s = (w, r) -> s = w ++ r.
Proof.
  revert q w r. induction s as [|c s IH]; intros q w r; cbn [word].
  - intros [= <- <-]. reflexivity.
  - destruct (kspace c && negb q); [intros [= <- <-]; reflexivity|].
    destruct (word _ s) as [w' r'] eqn:E. intros [= <- <-]. cbn. f_equal. exact (IH _ _ _ E).
Qed.

Lemma word_inq q s w r : word q s = (w, r) -> inq q s = false -> inq false r = false.
Proof.
  revert q w r. induction s as [|c s IH]; intros q w r; cbn [word].
  - intros [= <- <-] _. reflexivity.
  - destruct (kspace c && negb q) eqn:K.
    + intros [= <- <-]. apply andb_prop in K as [_ K]. destruct q; [discriminate|]. intro H. exact H.
    + destruct (word _ s) as [w' r'] eqn:E. intros [= <- <-] H. exact (IH _ _ _ E H).
Qed.

Lemma word_app sp q s w r b : kspace sp = true -> word q s = (w, r) -> inq q s = false -> word q (s ++ sp :: b) = (w, r ++ sp :: b).
Proof.
  intro Ksp. revert q w r. induction s as [|c s IH]; intros q w r; cbn [word].
  - intros [= <- <-] H. cbn in H. subst q. cbn [app word]. rewrite Ksp. reflexivity.
  - cbn [app word]. destruct (kspace c && negb q) eqn:K; [intros [= <- <-] _; reflexivity|].
    destruct (word _ s) as [w' r'] eqn:E. intros [= <- <-] H. rewrite (IH _ _ _ E H). reflexivity.
Qed.


Lemma word_plain s : ~ In 34 s -> Forall (fun c => kspace c = false) s -> word false s = (s, []).
Proof.
  induction s as [|c s IH]; intros H K; [reflexivity|]. cbn [word]. inversion K; subst. rewrite H2. cbn [andb].
  destruct (c =? 34) eqn:E. { apply N.eqb_eq in E. subst. exfalso. apply H. left. reflexivity. }
  rewrite IH; [reflexivity| intro; apply H; right; assumption | assumption].
Qed.

Lemma word_inner s t : ~ In 34 s -> word true (s ++ 34 :: t) = (let (w, r) := word false t in (s ++ 34 :: w, r)).
Proof.
  induction s as [|c s IH]; intros H.
  - cbn [app word]. rewrite kspace_34. cbn [andb negb]. rewrite N.eqb_refl. reflexivity.
  - cbn [app word]. rewrite Bool.andb_false_r.
    destruct (c =? 34) eqn:E. { apply N.eqb_eq in E. subst. exfalso. apply H. left. reflexivity. }
    rewrite IH by (intro; apply H; right; assumption). destruct (word false t). reflexivity.
Qed.

Lemma word_pre s t : ~ In 34 s -> Forall (fun c => kspace c = false) s ->
  word false (s ++ t) = (let (w, r) := word false t in (s ++ w, r)).
Proof.
  induction s as [|c s IH]; intros H K; [cbn; destruct (word false t); reflexivity|]. cbn [app word].
  inversion K; subst. rewrite H2. cbn [andb].
  destruct (c =? 34) eqn:E. { apply N.eqb_eq in E. subst. exfalso. apply H. left. reflexivity. }
  rewrite IH; [destruct (word false t); reflexivity| intro; apply H; right; assumption | assumption].
Qed.

(** ** next_arg *)
Lemma next_arg_rest s : exists w, snd (next_arg s) = snd (word (starts_with_quote s) (if starts_with_quote s then tl s else s)) /\
  fst (word (starts_with_quote s) (if starts_with_quote s then tl s else s)) = w.
Proof. eexists. split; [|reflexivity]. unfold next_arg. destruct (word _ _). reflexivity. Qed.

Lemma next_arg_shorter c s : kspace c = false -> (length (snd (next_arg (c :: s))) <= length s)%nat.
Proof.
  intro K. destruct (next_arg_rest (c :: s)) as (w & -> & _). cbn [starts_with_quote].
  destruct (c =? 34) eqn:Q.
  - cbn [tl]. destruct (word true s) as [w' r'] eqn:E. apply word_split in E. subst s. cbn. rewrite app_length. lia.
  - cbn [word]. rewrite K. cbn [andb]. rewrite Q. destruct (word false s) as [w' r'] eqn:E. apply word_split in E. subst s.
    cbn. rewrite app_length. lia.
Qed.

Lemma next_arg_app sp s b p r : kspace sp = true -> s <> [] -> inq false s = false -> next_arg s = (p, r) ->
  next_arg (s ++ sp :: b) = (p, r ++ sp :: b) /\ inq false r = false.
Proof.
  intros Ksp N H. unfold next_arg. destruct s as [|c s]; [congruence|]. cbn [starts_with_quote app tl].
  destruct (c =? 34) eqn:Q.
  - assert (H' : inq true s = false) by (revert H; cbn [inq fold_left]; rewrite Q; exact (fun h => h)).
    destruct (word true s) as [w r'] eqn:E. rewrite (word_app sp _ _ _ _ b Ksp E H'). intros [= <- <-].
    split; [reflexivity|]. exact (word_inq _ _ _ _ E H').
  - destruct (word false (c :: s)) as [w r'] eqn:E. pose proof (word_app sp _ _ _ _ b Ksp E H) as E'. cbn [app] in E'. rewrite E'. intros [= <- <-].
    split; [reflexivity|]. exact (word_inq _ _ _ _ E H).
Qed.

(** ** The loop *)
Lemma skip_cases s : (skip_spaces s = [] /\ Forall (fun c => kspace c = true) s) \/
  (exists c t l, skip_spaces s = c :: t /\ kspace c = false /\ s = l ++ c :: t /\ Forall (fun c => kspace c = true) l).
Proof.
  induction s as [|c s IH]; [left; split; [reflexivity|constructor]|]. cbn [skip_spaces]. destruct (kspace c) eqn:K.
  - destruct IH as [[E F]|(c' & t & l & E & K' & -> & F)].
    + left. split; [exact E|constructor; assumption].
    + right. exists c', t, (c :: l). split; [exact E|]. split; [exact K'|]. split; [reflexivity|constructor; assumption].
  - right. exists c, s, []. split; [reflexivity|]. split; [exact K|]. split; [reflexivity|constructor].
Qed.

Lemma skip_app l s : Forall (fun c => kspace c = true) l -> skip_spaces (l ++ s) = skip_spaces s.
Proof. induction 1; [reflexivity|]. cbn. rewrite H. assumption. Qed.
Lemma skip_here c s : kspace c = false -> skip_spaces (c :: s) = c :: s.
Proof. intro K. cbn. rewrite K. reflexivity. Qed.
Lemma inq_spaces l s : Forall (fun c => kspace c = true) l -> inq false (l ++ s) = inq false s.
Proof. induction 1; [reflexivity|]. cbn [app inq fold_left]. rewrite (kspace_quote _ H). assumption. Qed.

Lemma params_fuel n : forall m s, (length s < n)%nat -> (length s < m)%nat -> params_of n s = params_of m s.
Proof.
  induction n as [|n IH]; intros m s L M; [lia|]. destruct m as [|m]; [lia|]. cbn [params_of].
  destruct (skip_cases s) as [[-> _]|(c & t & l & -> & K & -> & F)]; [reflexivity|].
  pose proof (next_arg_shorter c t K) as Sh. destruct (next_arg (c :: t)) as [p r]. cbn [snd] in Sh.
  rewrite app_length in L, M. cbn [length] in L, M.
  destruct (is_stop p); [reflexivity|]. rewrite (IH m r) by lia. reflexivity.
Qed.

Lemma reads_unfold s : kernel_reads s =
  match skip_spaces s with
  | [] => ([], None)
  | c :: t => let (p, rest) := next_arg (c :: t) in
              if is_stop p then ([], Some (skip_spaces rest))
              else let (ps, e) := kernel_reads rest in (p :: ps, e)
  end.
Proof.
  unfold kernel_reads at 1. cbn [params_of].
  destruct (skip_cases s) as [[-> _]|(c & t & l & -> & K & -> & F)]; [reflexivity|].
  pose proof (next_arg_shorter c t K) as Sh. destruct (next_arg (c :: t)) as [p r]. cbn [snd] in Sh.
  rewrite app_length. cbn [length]. destruct (is_stop p); [reflexivity|].
  unfold kernel_reads. rewrite (params_fuel _ (S (length r)) r) by lia. reflexivity.
Qed.

Lemma reads_skip s : kernel_reads s = kernel_reads (skip_spaces s).
Proof.
  rewrite (reads_unfold s), (reads_unfold (skip_spaces s)).
  destruct (skip_cases s) as [[-> _]|(c & t & l & -> & K & -> & F)]; [reflexivity|]. rewrite (skip_here c t K). reflexivity.
Qed.

(** Two pieces, the first with balanced quotes and no lone "--". *)
Lemma reads_app sp n : kspace sp = true -> forall s b ps, (length s <= n)%nat -> inq false s = false -> kernel_reads s = (ps, None) ->
  kernel_reads (s ++ sp :: b) = (ps ++ fst (kernel_reads b), snd (kernel_reads b)).
Proof.
  intro Ksp. induction n as [|n IH]; intros s b ps L H.
  - destruct s; [|cbn in L; lia]. intros [= <-]. cbn [app]. rewrite (reads_skip (sp :: b)). cbn [skip_spaces]. rewrite Ksp.
    rewrite <- reads_skip. destruct (kernel_reads b); reflexivity.
  - destruct (skip_cases s) as [[E F]|(c & t & l & E & K & -> & F)].
    + rewrite reads_unfold, E. intros [= <-]. rewrite (reads_skip (s ++ sp :: b)), (skip_app s _ F). cbn [skip_spaces]. rewrite Ksp.
      rewrite <- reads_skip. destruct (kernel_reads b); reflexivity.
    + rewrite reads_unfold, E. rewrite inq_spaces in H by exact F.
      pose proof (next_arg_shorter c t K) as Sh. destruct (next_arg (c :: t)) as [p r] eqn:EA. cbn [snd] in Sh.
      destruct (next_arg_app sp (c :: t) b p r Ksp ltac:(discriminate) H EA) as [EB HR].
      rewrite <- app_assoc. rewrite (reads_unfold (l ++ _)), (skip_app l _ F). cbn [app] in *. rewrite (skip_here c _ K), EB.
      destruct (is_stop p); [discriminate|]. destruct (kernel_reads r) as [ps' e] eqn:ER. intros [= <- ->].
      rewrite app_length in L. cbn in L.
      rewrite (IH r b ps' ltac:(lia) HR ER). reflexivity.
Qed.

Lemma reads_two sp s b ps : kspace sp = true -> inq false s = false -> kernel_reads s = (ps, None) ->
  kernel_reads (s ++ sp :: b) = (ps ++ fst (kernel_reads b), snd (kernel_reads b)).
Proof. intro Ksp. exact (reads_app sp (length s) Ksp s b ps (le_n _)). Qed.

Lemma reads_stop c init : kspace c = false -> kernel_reads (45 :: 45 :: 32 :: c :: init) = ([], Some (c :: init)).
Proof.
  intro K. rewrite reads_unfold, skip_here by reflexivity.
  assert (E : next_arg (45 :: 45 :: 32 :: c :: init) = (([45; 45], None), 32 :: c :: init)) by reflexivity.
  rewrite E. change (is_stop ([45; 45], None)) with true. cbn iota. f_equal. f_equal.
  exact (skip_here c init K).
Qed.

(** ** Quotes *)
Lemma inq_even q s : inq q s = xorb q (negb (Nat.even (count_occ N.eq_dec s 34))).
Proof.
  revert q. induction s as [|c s IH]; intro q; cbn [inq fold_left count_occ]; [destruct q; reflexivity|].
  fold (inq (if c =? 34 then negb q else q) s). rewrite IH. destruct (N.eq_dec c 34) as [->|E].
  - rewrite N.eqb_refl. rewrite Nat.even_succ, <- Nat.negb_even. destruct q, (Nat.even _); reflexivity.
  - destruct (N.eqb_spec c 34); [contradiction|reflexivity].
Qed.
Lemma balanced_inq s : quotes_balanced s <-> inq false s = false.
Proof.
  unfold quotes_balanced, unquoted_at. rewrite firstn_all, inq_even. destruct (Nat.even _); split; cbn; congruence.
Qed.
Lemma no_quote_balanced s : ~ In 34 s -> quotes_balanced s.
Proof. intro H. unfold quotes_balanced, unquoted_at. rewrite firstn_all. apply (count_occ_not_In N.eq_dec) in H. rewrite H. reflexivity. Qed.

(** ** key=value *)
Definition solid (s : text) : Prop := Forall (fun c => kspace c = false) s.
Lemma solid_printable s : Forall printable s -> ~ In 32 s -> solid s.
Proof.
  intros P N. unfold solid. rewrite Forall_forall in *. intros c H. specialize (P c H). unfold printable in P.
  assert (c <> 32) by (intros ->; contradiction). unfold kspace. lia.
Qed.
Lemma at_equals_mid k v : ~ In 61 k -> at_equals (k ++ 61 :: v) = Some (k, v).
Proof.
  induction k as [|c k IH]; intro H; cbn [app at_equals]; [rewrite N.eqb_refl; reflexivity|].
  destruct (N.eqb_spec c 61) as [->|]; [exfalso; apply H; left; reflexivity|]. rewrite IH; [reflexivity|]. intro; apply H; right; assumption.
Qed.

Lemma at_equals_none w : ~ In 61 w -> at_equals w = None.
Proof.
  induction w as [|c w IH]; intro H; cbn [at_equals]; [reflexivity|].
  destruct (N.eqb_spec c 61) as [->|]; [exfalso; apply H; left; reflexivity|]. rewrite IH; [reflexivity|]. intro; apply H; right; assumption.
Qed.

Lemma reads_one c t p : kspace c = false -> next_arg (c :: t) = (p, []) -> is_stop p = false -> kernel_reads (c :: t) = ([p], None).
Proof. intros K E S. rewrite reads_unfold, (skip_here _ _ K), E, S. reflexivity. Qed.

Lemma not_quote_head c (k : text) : ~ In 34 (c :: k) -> c =? 34 = false.
Proof. intro H. destruct (N.eqb_spec c 34) as [->|]; [|reflexivity]. exfalso. apply H. left. reflexivity. Qed.

Lemma drop_last s : drop_last_quote (s ++ [34]) = s.
Proof. unfold drop_last_quote. rewrite last_last, removelast_last. reflexivity. Qed.

Lemma kv_alone k v b : k <> [] -> ~ In 34 k -> good_key k -> good_value v -> bare v b -> stands_alone (k ++ 61 :: v) [(k, Some b)].
Proof.
  intros N Q (Pk & Sk & Ek) (Pv & _ & Sv) B. destruct k as [|c k]; [congruence|]. cbn [app].
  pose proof (solid_printable _ Pk Sk) as So.
  assert (K : kspace c = false) by (inversion So; assumption).
  pose proof (not_quote_head _ _ Q) as C.
  assert (E61 : forall t, ~ In 34 t -> (c :: k) ++ 61 :: t = ((c :: k) ++ [61]) ++ t) by (intros; rewrite <- app_assoc; reflexivity).
  assert (So1 : solid ((c :: k) ++ [61])) by (apply Forall_app; split; [exact So|repeat constructor]).
  assert (Q1 : ~ In 34 ((c :: k) ++ [61])) by (intro H; apply in_app_or in H as [H|[H|[]]]; [exact (Q H)|discriminate]).
  assert (Ek' : ~ In 61 k) by (intro; apply Ek; right; assumption).
  destruct B as [v Qv|v Qv].
  - split.
    + apply no_quote_balanced. change (~ In 34 ((c :: k) ++ 61 :: v)). intro H. apply in_app_or in H as [H|[H|H]]; [exact (Q H)|discriminate|exact (Qv H)].
    + apply reads_one; [exact K| |reflexivity]. unfold next_arg. cbn [starts_with_quote]. rewrite C.
      replace (c :: k ++ 61 :: v) with (((c :: k) ++ [61]) ++ v) by (rewrite <- app_assoc; reflexivity).
      rewrite (word_pre _ v Q1 So1). rewrite (word_plain v Qv).
      2:{ apply solid_printable; [exact Pv|]. intro H. destruct (Sv H) as [x ->]. apply Qv. left. reflexivity. }
      rewrite <- app_assoc. cbn [app]. rewrite (at_equals_mid k v Ek').
      destruct v as [|x v]; [reflexivity|]. cbn [starts_with_quote]. rewrite (not_quote_head _ _ Qv). reflexivity.
  - split.
    + apply balanced_inq. change (inq false ((c :: k) ++ 61 :: 34 :: v ++ [34]) = false).
      rewrite inq_app. replace (inq false (c :: k)) with false.
      2:{ symmetry. apply balanced_inq. apply no_quote_balanced. exact Q. }
      change (inq true (v ++ [34]) = false). rewrite inq_app. 
      replace (inq true v) with true; [reflexivity|]. rewrite inq_even. apply (count_occ_not_In N.eq_dec) in Qv. rewrite Qv. reflexivity.
    + apply reads_one; [exact K| |reflexivity]. unfold next_arg. cbn [starts_with_quote]. rewrite C.
      change (c :: k ++ 61 :: [34] ++ v ++ [34]) with ((c :: k) ++ 61 :: 34 :: v ++ [34]).
      replace ((c :: k) ++ 61 :: 34 :: v ++ [34]) with (((c :: k) ++ [61]) ++ 34 :: v ++ [34]) by (rewrite <- app_assoc; reflexivity).
      rewrite (word_pre _ _ Q1 So1).
      change (word false (34 :: v ++ [34])) with (let (w, r) := word true (v ++ [34]) in (34 :: w, r)).
      rewrite (word_inner v [] Qv). cbn [word]. cbn iota.
      rewrite <- app_assoc. cbn [app]. rewrite (at_equals_mid k _ Ek'). cbn [starts_with_quote tl]. rewrite N.eqb_refl, drop_last. reflexivity.
Qed.

(** A single word. *)
Lemma word_alone w : w <> [] -> Forall printable w -> ~ In 32 w -> ~ In 34 w -> ~ In 61 (tl w) -> w <> txt "--" -> stands_alone w [(w, None)].
Proof.
  intros N P S Q E D. split; [apply no_quote_balanced; exact Q|]. destruct w as [|c w]; [congruence|]. cbn [tl] in E.
  pose proof (solid_printable _ P S) as So. apply reads_one; [inversion So; assumption| |].
  - unfold next_arg. cbn [starts_with_quote]. rewrite (not_quote_head _ _ Q), (word_plain _ Q So), (at_equals_none _ E). reflexivity.
  - unfold is_stop. cbn [fst snd]. destruct (list_eq_dec _ _ _); [contradiction|reflexivity].
Qed.

(** Two texts that stand alone, next to each other. *)
Lemma alone_add a b ps qs : stands_alone a ps -> stands_alone b qs -> stands_alone (a ++ 32 :: b) (ps ++ qs).
Proof.
  intros [Ba Ra] [Bb Rb]. apply balanced_inq in Ba, Bb. split.
  - apply balanced_inq. rewrite inq_app, Ba. exact Bb.
  - rewrite (reads_two 32 _ _ _ kspace_32 Ba Ra), Rb. reflexivity.
Qed.
Lemma alone_nil : stands_alone [] []. Proof. split; reflexivity. Qed.
Lemma alone_unique t ps qs : stands_alone t ps -> stands_alone t qs -> ps = qs.
Proof. intros [_ A] [_ B]. congruence. Qed.

(** ** Bytes *)
Lemma seen_app a b : seen (a ++ b) = seen a ++ seen b.
Proof. unfold seen. rewrite utf8_app, map_app. reflexivity. Qed.
Lemma seen_printable t : Forall printable t -> seen t = t.
Proof.
  intro P. unfold seen. rewrite (utf8_printable t P), map_map. rewrite <- (map_id t) at 2. apply map_ext_in.
  intros c H. rewrite Forall_forall in P. specialize (P c H). unfold printable in P. apply n8_b8_small. lia.
Qed.

Lemma seen_head c t : ~ white c -> exists c' t', seen (c :: t) = c' :: t' /\ kspace c' = false.
Proof.
  intro W. unfold seen. cbn [utf8 flat_map]. fold (utf8 t). unfold utf8_char.
  destruct (N.ltb_spec c 128) as [L|L].
  { exists c, (map n8 (utf8 t)). cbn [app map]. rewrite n8_b8_small by lia. split; [reflexivity|].
    apply is_whitespace_false in W. unfold is_whitespace in W. unfold kspace. lia. }
  destruct (N.ltb_spec c 2048) as [L2|L2].
  { exists (192 + c / 64). eexists. cbn [app map]. rewrite n8_b8_small by (assert (c / 64 < 32) by (apply N.div_lt_upper_bound; lia); lia).
    split; [reflexivity|]. unfold kspace. lia. }
  destruct (N.ltb_spec c 65536) as [L3|L3].
  { exists (224 + c / 4096). eexists. cbn [app map]. rewrite n8_b8_small by (assert (c / 4096 < 16) by (apply N.div_lt_upper_bound; lia); lia).
    split; [reflexivity|]. unfold kspace. lia. }
  { exists (240 + c / 262144 mod 8). eexists. cbn [app map]. rewrite n8_b8_small by (assert (c / 262144 mod 8 < 8) by (apply N.mod_lt; lia); lia).
    split; [reflexivity|]. unfold kspace. lia. }
Qed.

(** The two parts together. *)
Definition tail_of (init : text) : option text := match init with [] => None | i => Some (seen i) end.
Lemma reads_full boot init ps : stands_alone (seen boot) ps -> (forall c t, init = c :: t -> ~ white c) ->
  kernel_reads (seen (full_text boot init)) = (ps, tail_of init).
Proof.
  intros [B R] W. apply balanced_inq in B. destruct init as [|c t]; [exact R|].
  unfold full_text. rewrite !seen_app. change (seen (txt " -- ")) with [32; 45; 45; 32]. cbn [app].
  rewrite (reads_two 32 _ _ _ kspace_32 B R). destruct (seen_head c t (W c t eq_refl)) as (c' & t' & E & K).
  unfold tail_of. rewrite E. rewrite (reads_stop c' t' K). cbn [fst snd]. rewrite app_nil_r. reflexivity.
Qed.

(** ** Histories *)
Lemma device_text_quiet size base irq id : ~ In 34 (device_text size base irq id) /\
  Forall printable (device_text size base irq id) /\ ~ In 32 (device_text size base irq id).
Proof.
  assert (H : Forall (fun c => printable c /\ c <> 32 /\ c <> 34) (device_text size base irq id)).
  { assert (Hs : forall s, Forall (fun c => printable c /\ c <> 32 /\ c <> 34) (txt s) <->
                    forallb (fun c => valid_char c && negb (c =? 32) && negb (c =? 34)) (txt s) = true).
    { intros s. rewrite forallb_forall, Forall_forall. unfold valid_char, printable.
      split; intros H x Hx; specialize (H x Hx); lia. }
    assert (F : forall b n, 2 <= b -> b <= 16 -> Forall (fun c => printable c /\ c <> 32 /\ c <> 34) (digits b (S (N.size_nat n)) n [])).
    { intros b n H1 H2. destruct (fmt_chars b n H1 H2) as [H _]. eapply Forall_impl; [|exact H].
      intros c (d & Hd & ->). unfold digit_char, printable. destruct (N.ltb_spec d 10); lia. }
    unfold device_text. destruct (size_str_form size) as (v & mul & suf & -> & _ & Hsuf).
    apply Forall_app. split.
    { apply Forall_app. split; [apply F; lia|].
      destruct Hsuf as [[-> _]|[[-> _]|[[-> _]|[-> _]]]]; repeat constructor; try lia; discriminate. }
    apply Forall_app. split; [now apply Hs|].
    apply Forall_app. split; [apply F; lia|].
    apply Forall_app. split; [now apply Hs|].
    apply Forall_app. split; [apply F; lia|].
    destruct id; [|constructor]. apply Forall_app. split; [now apply Hs|apply F; lia]. }
  rewrite Forall_forall in H. split; [intro I; destruct (H _ I) as (_ & _ & N); congruence|].
  split; [rewrite Forall_forall; intros c I; apply (H c I)|intro I; destruct (H _ I) as (_ & N & _); congruence].
Qed.

Lemma printable_good_value v : Forall printable v -> ~ In 32 v -> ~ In 34 v -> good_value v.
Proof.
  intros P S Q. split; [exact P|]. split; [|intro; contradiction].
  intros (a & x & b & y & ->). apply Q. apply in_or_app. right. left. reflexivity.
Qed.

Lemma comma_quiet (x : N) vs : x <> 44 -> (forall v, In v vs -> ~ In x v) -> ~ In x (comma_list vs).
Proof.
  intro X. induction vs as [|v vs IH]; intros H; [exact (fun h => h)|]. destruct vs as [|w vs].
  - cbn [comma_list]. apply H. left. reflexivity.
  - change (~ In x (v ++ [44] ++ comma_list (w :: vs))). intro I. apply in_app_or in I as [I|[I|I]].
    + exact (H v (or_introl eq_refl) I).
    + congruence.
    + exact (IH (fun v h => H v (or_intror h)) I).
Qed.

Lemma contributes_alone bld c o c1 p : Inv c -> run_op bld c o = (c1, Ok tt) -> contributes o p ->
  exists t, Forall printable t /\ stands_alone t p /\ c1 = mkCmdline (add_arg (boot_args c) t) (init_args c) (capacity c).
Proof.
  intros I E C. destruct C as [k v b N Q B|k vs N Q V|s t ps T A|size base irq id d D]; cbn [run_op] in E.
  - destruct (insert_cases bld c k v I) as [(e & _ & E')|[(_ & e & _ & E')|[(_ & _ & _ & E')|(Hk & Hv & Hf & E')]]];
      rewrite E in E'; try discriminate. injection E' as ->.
    exists (k ++ txt "=" ++ v). change (txt "=") with [61]. split; [apply kv_printable; [exact Hk|apply Hv]|]. split; [|reflexivity].
    exact (kv_alone k v b N Q Hk Hv B).
  - destruct (insert_multiple_cases bld c k vs I)
      as [(e & _ & E')|[(_ & _ & E')|[(_ & pre & v & post & e & _ & _ & _ & E')|[(_ & _ & _ & _ & E')|(Hk & _ & Hv & Hf & E')]]]];
      rewrite E in E'; try discriminate. injection E' as ->.
    exists (k ++ txt "=" ++ comma_list vs). change (txt "=") with [61].
    split; [apply kv_printable; [exact Hk|apply comma_printable; exact Hv]|]. split; [|reflexivity].
    assert (Q' : ~ In 34 (comma_list vs)) by (apply comma_quiet; [discriminate|exact V]).
    apply (kv_alone k (comma_list vs) (comma_list vs) N Q Hk); [|constructor; exact Q'].
    apply printable_good_value; [apply comma_printable; exact Hv| |exact Q'].
    apply comma_quiet; [discriminate|]. intros v In1 In2. rewrite Forall_forall in Hv. destruct (Hv v In1) as (_ & _ & Sq).
    destruct (Sq In2) as [x ->]. apply (V _ In1). left. reflexivity.
  - destruct (insert_str_cases bld c s I) as [[_ E']|[(_ & _ & E')|(Hp & Hf & E')]]; rewrite E in E'; try discriminate.
    injection E' as ->. apply trimmed_unique in T. subst t. exists (trim s). split; [exact Hp|]. split; [exact A|reflexivity].
  - destruct (virtio_cases bld c size base irq id I) as [(_ & E')|[(_ & _ & E')|(Hne & Hf & E')]]; rewrite E in E'; try discriminate.
    assert (c1 = mkCmdline (add_arg (boot_args c) (txt "virtio_mmio.device=" ++ device_text size base irq id)) (init_args c) (capacity c)) as -> by congruence.
    clear E E'. pose proof (device_argument_unique _ _ _ _ _ _ D (device_argument_ok size base irq id)) as U.
    apply app_inv_head in U. subst d. destruct (device_text_quiet size base irq id) as (Q & P & S).
    eexists. split; [|split; [|reflexivity]].
    + eapply Forall_impl; [|apply device_text_ok]. intros a Ha; apply Ha.
    + change (txt "virtio_mmio.device=" ++ device_text size base irq id) with (txt "virtio_mmio.device" ++ 61 :: device_text size base irq id).
      apply kv_alone; [discriminate| | | |constructor; exact Q].
      * apply (count_occ_not_In N.eq_dec). reflexivity.
      * split; [apply forallb_printable; reflexivity|]. split; apply (count_occ_not_In N.eq_dec); reflexivity.
      * apply printable_good_value; assumption.
Qed.

Lemma add_arg_alone cur t ps qs : Forall printable t -> stands_alone (seen cur) ps -> stands_alone t qs -> stands_alone (seen (add_arg cur t)) (ps ++ qs).
Proof.
  intros P A B. destruct cur as [|c r].
  - rewrite (alone_unique _ _ _ A alone_nil). cbn [add_arg]. rewrite (seen_printable t P). exact B.
  - unfold add_arg. rewrite !seen_app, (seen_printable t P). exact (alone_add _ _ _ _ A B).
Qed.

Definition unblank_head (t : text) : Prop := forall c r, t = c :: r -> ~ white c.

Lemma tells_alone bld c os ps is c' : tells bld c os ps is c' -> forall ps0, Inv c -> stands_alone (seen (boot_args c)) ps0 -> unblank_head (init_args c) ->
  stands_alone (seen (boot_args c')) (ps0 ++ ps) /\ init_args c' = args_text (init_args c :: is) /\ unblank_head (init_args c') /\ run_ops bld c os = c'.
Proof.
  induction 1 as [c|c o os ps is c1 e c' E _ IH|c o os p ps is c1 c' E C _ IH|c s t os ps is c1 c' E T _ IH]; intros ps0 I A U.
  - rewrite app_nil_r. split; [exact A|]. split; [rewrite <- args_text_fold; reflexivity|]. split; [exact U|reflexivity].
  - pose proof (rejected_unchanged _ _ _ _ _ E) as ->. destruct (IH ps0 I A U) as (X1 & X2 & X3 & X4).
    split; [exact X1|]. split; [exact X2|]. split; [exact X3|]. unfold run_ops. cbn [fold_left]. rewrite E. exact X4.
  - destruct (contributes_alone bld c o c1 p I E C) as (t & Pt & At & ->).
    pose proof (proj1 (run_op_inv bld c o I)) as I1. rewrite E in I1. cbn [fst] in I1.
    destruct (IH (ps0 ++ p) I1 (add_arg_alone _ _ _ _ Pt A At) U) as (X1 & X2 & X3 & X4).
    rewrite app_assoc. split; [exact X1|]. split; [exact X2|]. split; [exact X3|]. unfold run_ops. cbn [fold_left]. rewrite E. exact X4.
  - pose proof (proj1 (run_op_inv bld c (OpInit s) I)) as I1. rewrite E in I1. cbn [fst] in I1.
    cbn [run_op] in E. destruct (insert_init_cases bld c s I) as [[_ E']|[(_ & _ & E')|(Hp & Hf & E')]]; rewrite E in E'; try discriminate.
    injection E' as ->. pose proof T as T'. apply trimmed_unique in T. subst t.
    assert (U1 : unblank_head (add_arg (init_args c) (trim s))).
    { destruct (init_args c) as [|x r] eqn:Ei; [|intros c0 r0 [= <- _]; exact (U x r eq_refl)].
      cbn [add_arg]. destruct T' as (l & r & _ & _ & _ & Hh & _). exact Hh. }
    destruct (IH ps0 I1 A U1) as (X1 & X2 & X3 & X4). cbn [init_args] in X2.
    split; [exact X1|]. split.
    { rewrite X2. rewrite <- !args_text_fold. reflexivity. }
    split; [exact X3|]. unfold run_ops. cbn [fold_left run_op]. rewrite E. exact X4.
Qed.

Lemma tells_exists bld os : forall c, Inv c -> Forall well_behaved os -> exists ps is, tells bld c os ps is (run_ops bld c os).
Proof.
  induction os as [|o os IH]; intros c I W; [exists [], []; constructor|]. inversion W as [|? ? Wo Ws]; subst.
  unfold run_ops in *. cbn [fold_left]. destruct (run_op_inv bld c o I) as [I1 _].
  destruct (IH _ I1 Ws) as (ps & is & T).
  destruct (run_op_cases bld c o I) as [(e & E)|[(t & B & _ & _ & E)|(t & B & _ & _ & E)]]; rewrite E in *; cbn [fst] in *.
  - exists ps, is. eapply te_rejected; eassumption.
  - assert (C : exists p, contributes o p).
    { destruct o as [k v|k vs|s|s|size base irq id]; cbn [well_behaved] in Wo.
      - destruct Wo as (N & Q & b & Bb). eexists. econstructor; eassumption.
      - destruct Wo as (N & Q & V). eexists. econstructor; eassumption.
      - destruct Wo as (u & p & T1 & A). eexists. econstructor; eassumption.
      - inversion B.
      - eexists. constructor. apply device_argument_ok. }
    destruct C as [p C]. exists (p ++ ps), is. eapply te_boot; eassumption.
  - destruct B as [s t Ts]. exists ps, (t :: is). eapply te_init; eassumption.
Qed.

(** ** Blanks do not matter between arguments *)
Definition blank (s : text) : Prop := Forall (fun c => kspace c = true) s.

(** What a stop leaves to read. *)
Lemma reads_app_stop sp n : kspace sp = true -> forall s b ps e, (length s <= n)%nat -> inq false s = false -> kernel_reads s = (ps, Some e) ->
  kernel_reads (s ++ sp :: b) = (ps, Some (match e with [] => skip_spaces b | _ => e ++ sp :: b end)) /\ inq false e = false.
Proof.
  intro Ksp. induction n as [|n IH]; intros s b ps e L H.
  - destruct s; [|cbn in L; lia]. discriminate.
  - destruct (skip_cases s) as [[E F]|(c & t & l & E & K & -> & F)].
    + rewrite reads_unfold, E. discriminate.
    + rewrite reads_unfold, E. rewrite inq_spaces in H by exact F.
      pose proof (next_arg_shorter c t K) as Sh. destruct (next_arg (c :: t)) as [p r] eqn:EA. cbn [snd] in Sh.
      destruct (next_arg_app sp (c :: t) b p r Ksp ltac:(discriminate) H EA) as [EB HR].
      rewrite <- app_assoc. rewrite (reads_unfold (l ++ _)), (skip_app l _ F). cbn [app] in *. rewrite (skip_here c _ K), EB.
      destruct (is_stop p).
      * intros [= <- <-]. destruct (skip_cases r) as [[E' F']|(c' & t' & l' & E' & K' & -> & F')].
        { rewrite E'. split; [|reflexivity]. rewrite (skip_app r _ F'). cbn [skip_spaces]. rewrite Ksp. reflexivity. }
        { rewrite E'. rewrite <- app_assoc, (skip_app l' _ F'). cbn [app]. rewrite (skip_here c' _ K'). split; [reflexivity|].
          rewrite inq_spaces in HR by exact F'. exact HR. }
      * destruct (kernel_reads r) as [ps' e'] eqn:ER. intros [= <- ->].
        rewrite app_length in L. cbn in L.
        destruct (IH r b ps' e ltac:(lia) HR ER) as [X Y]. rewrite X. split; [reflexivity|exact Y].
Qed.

(** Two texts with the same view, after the same balanced text. *)
Lemma view_two sp sp' s b b' : kspace sp = true -> kspace sp' = true -> inq false s = false ->
  kernel_view b = kernel_view b' -> kernel_view (s ++ sp :: b) = kernel_view (s ++ sp' :: b').
Proof.
  intros Ksp Ksp' H V.
  assert (R : fst (kernel_reads b) = fst (kernel_reads b')).
  { unfold kernel_view in V. destruct (kernel_reads b), (kernel_reads b'). injection V as V1 V2. exact V1. }
  unfold kernel_view. destruct (kernel_reads s) as [ps [e|]] eqn:E.
  - destruct (reads_app_stop sp (length s) Ksp s b ps e (le_n _) H E) as [-> He].
    destruct (reads_app_stop sp' (length s) Ksp' s b' ps e (le_n _) H E) as [-> _]. f_equal.
    destruct e as [|c e]; [rewrite <- !reads_skip; exact R|].
    destruct (kernel_reads (c :: e)) as [qs [e2|]] eqn:E2.
    + destruct (reads_app_stop sp _ Ksp (c :: e) b qs e2 (le_n _) He E2) as [-> _].
      destruct (reads_app_stop sp' _ Ksp' (c :: e) b' qs e2 (le_n _) He E2) as [-> _]. reflexivity.
    + rewrite (reads_two sp (c :: e) b qs Ksp He E2), (reads_two sp' (c :: e) b' qs Ksp' He E2). cbn [fst]. rewrite R. reflexivity.
  - rewrite (reads_two sp s b ps Ksp H E), (reads_two sp' s b' ps Ksp' H E). unfold kernel_view in V.
    destruct (kernel_reads b), (kernel_reads b'). cbn [fst snd] in *. injection V as V1 V2. rewrite V1, V2. reflexivity.
Qed.

Lemma view_end sp s : kspace sp = true -> inq false s = false -> kernel_view (s ++ [sp]) = kernel_view s.
Proof.
  intros Ksp H. unfold kernel_view. destruct (kernel_reads s) as [ps [e|]] eqn:E.
  - destruct (reads_app_stop sp (length s) Ksp s [] ps e (le_n _) H E) as [-> He]. f_equal.
    destruct e as [|c e]; [reflexivity|]. destruct (kernel_reads (c :: e)) as [qs [e2|]] eqn:E2.
    + destruct (reads_app_stop sp _ Ksp (c :: e) [] qs e2 (le_n _) He E2) as [-> _]. reflexivity.
    + rewrite (reads_two sp (c :: e) [] qs Ksp He E2). cbn. apply app_nil_r.
  - rewrite (reads_two sp s [] ps Ksp H E). cbn. rewrite app_nil_r. reflexivity.
Qed.

Lemma view_skip s : kernel_view s = kernel_view (skip_spaces s).
Proof. unfold kernel_view. rewrite <- reads_skip. reflexivity. Qed.
Lemma view_blank_front l s : blank l -> kernel_view (l ++ s) = kernel_view s.
Proof. intro F. rewrite view_skip, (skip_app l s F), <- view_skip. reflexivity. Qed.
Lemma view_blank l : blank l -> kernel_view l = ([], []).
Proof. intro F. rewrite <- (app_nil_r l), (view_blank_front l [] F). reflexivity. Qed.

(** Text that adds nothing, after a balanced text. *)
Lemma view_nothing sp s b : kspace sp = true -> inq false s = false -> kernel_view b = ([], []) -> kernel_view (s ++ sp :: b) = kernel_view s.
Proof. intros Ksp H V. rewrite (view_two sp sp s b [] Ksp Ksp H V). exact (view_end sp s Ksp H). Qed.
Lemma view_blank_end s r : inq false s = false -> blank r -> kernel_view (s ++ r) = kernel_view s.
Proof.
  intros H F. destruct F as [|sp r Ksp F]; [rewrite app_nil_r; reflexivity|]. apply view_nothing; [exact Ksp|exact H|exact (view_blank r F)].
Qed.

Lemma view_stop t : kernel_view (45 :: 45 :: 32 :: t) = ([], fst (kernel_reads t)).
Proof.
  unfold kernel_view. rewrite reads_unfold, skip_here by reflexivity.
  assert (E : next_arg (45 :: 45 :: 32 :: t) = (([45; 45], None), 32 :: t)) by reflexivity.
  rewrite E. change (is_stop ([45; 45], None)) with true. cbn iota. rewrite <- reads_skip.
  rewrite (reads_skip (32 :: t)). change (skip_spaces (32 :: t)) with (skip_spaces t). rewrite <- reads_skip. reflexivity.
Qed.

Lemma reads_view t t' : kernel_view t = kernel_view t' -> fst (kernel_reads t) = fst (kernel_reads t').
Proof. unfold kernel_view. destruct (kernel_reads t), (kernel_reads t'). intros [= E _]. exact E. Qed.


(** The separator with any blanks around, then [init] with any blanks around. *)
Lemma view_parts boot init r l' r' : inq false boot = false -> inq false init = false -> blank r -> blank l' -> blank r' ->
  kernel_view (boot ++ r ++ txt " -- " ++ l' ++ init ++ r') = kernel_view (full_text boot init).
Proof.
  intros Hb Hi Fr Fl' Fr'. change (txt " -- ") with [32; 45; 45; 32].
  set (T := l' ++ init ++ r').
  assert (X : kernel_view (45 :: 45 :: 32 :: T) = ([], fst (kernel_reads init))).
  { rewrite view_stop. f_equal. apply reads_view. unfold T. rewrite (view_blank_front l' _ Fl'). exact (view_blank_end init r' Hi Fr'). }
  assert (Y : exists sp b, kspace sp = true /\ r ++ [32; 45; 45; 32] ++ T = sp :: b /\ kernel_view b = ([], fst (kernel_reads init))).
  { destruct Fr as [|sp r Ksp Fr].
    - exists 32, (45 :: 45 :: 32 :: T). split; [reflexivity|]. split; [reflexivity|exact X].
    - exists sp, (r ++ 32 :: 45 :: 45 :: 32 :: T). split; [exact Ksp|]. split; [reflexivity|].
      rewrite (view_blank_front r _ Fr). rewrite <- X. exact (view_blank_front [32] _ (Forall_cons _ kspace_32 (Forall_nil _))). }
  destruct Y as (sp & b & Ksp & -> & V). destruct init as [|c t].
  - exact (view_nothing sp boot b Ksp Hb V).
  - unfold full_text. change (txt " -- " ++ c :: t) with (32 :: 45 :: 45 :: 32 :: c :: t).
    apply view_two; [exact Ksp|reflexivity|exact Hb|]. rewrite V, view_stop. reflexivity.
Qed.

Definition ascii_text (t : text) : Prop := Forall (fun c => c < 128) t.
Lemma seen_ascii t : ascii_text t -> seen t = t.
Proof.
  unfold ascii_text. induction 1 as [|c t H _ IH]; [reflexivity|]. unfold seen in *. cbn [utf8 flat_map]. fold (utf8 t). rewrite map_app, IH.
  unfold utf8_char. rewrite (proj2 (N.ltb_lt _ _) H). cbn [map app]. rewrite n8_b8_small by lia. reflexivity.
Qed.
Lemma white_blank t : ascii_text t -> Forall white t -> blank t.
Proof.
  intros A W. unfold blank, ascii_text in *. rewrite Forall_forall in *. intros c H. specialize (A c H). specialize (W c H).
  apply is_whitespace_iff in W. unfold is_whitespace in W. unfold kspace. lia.
Qed.
Lemma white_inq q t : Forall white t -> inq q t = q.
Proof. intro W. rewrite inq_even, (white_no_quotes t W). destruct q; reflexivity. Qed.

(** [try_from] does not change what the kernel sees. *)
Lemma parsed_view raw boot init : ascii_text raw -> quotes_balanced raw -> parsed_parts raw boot init ->
  kernel_view (seen (full_text boot init)) = kernel_view (seen raw).
Proof.
  intros A B P. rewrite (seen_ascii raw A). apply balanced_inq in B.
  destruct P as [(i & (Sp & Un & _) & (l & r & E1 & Wl & Wr & _) & (l' & r' & E2 & Wl' & Wr' & _))|(_ & (l & r & E1 & Wl & Wr & _) & ->)].
  - assert (ER : raw = (l ++ boot ++ r) ++ txt " -- " ++ l' ++ init ++ r').
    { rewrite <- E1, <- E2. rewrite <- (firstn_skipn i raw) at 1. f_equal.
      rewrite <- (firstn_skipn 4 (skipn i raw)). unfold sep_at in Sp. rewrite Sp. f_equal.
      apply skipn_skipn_N. }
    unfold unquoted_at in Un. rewrite E1 in Un.
    assert (B1 : inq false (l ++ boot ++ r) = false) by (rewrite inq_even, Un; reflexivity).
    rewrite ER, inq_app, B1, inq_app in B. change (inq false (txt " -- ")) with false in B.
    rewrite inq_app, (white_inq _ l' Wl'), inq_app, (white_inq _ r' Wr') in B.
    rewrite inq_app, (white_inq _ l Wl), inq_app, (white_inq _ r Wr) in B1.
    rewrite ER in A. unfold ascii_text in A. rewrite !Forall_app in A. destruct A as ((Al & Ab & Ar) & _ & Al' & Ai & Ar').
    rewrite (seen_ascii (full_text boot init)).
    2:{ unfold full_text, ascii_text. destruct init; [exact Ab|]. rewrite !Forall_app. split; [exact Ab|]. split; [|exact Ai].
        repeat constructor. }
    rewrite ER, <- !app_assoc, (view_blank_front l _ (white_blank l Al Wl)).
    symmetry. apply view_parts; [exact B1|exact B| | |]; apply white_blank; assumption.
  - subst raw. rewrite inq_app, (white_inq _ l Wl), inq_app, (white_inq _ r Wr) in B.
    unfold ascii_text in A. rewrite !Forall_app in A. destruct A as (Al & Ab & Ar).
    cbn [full_text]. rewrite (seen_ascii boot Ab), (view_blank_front l _ (white_blank l Al Wl)).
    symmetry. apply view_blank_end; [exact B|apply white_blank; assumption].
Qed.
