(** * Props_User: property C100, the builder against user code. *)
From Verif Require Import Base Base_proofs Text Cmdline SpecCmdline Text_proofs Cmdline_proofs Cmdline_proofs2 Cmdline_proofs3 Props_Cmdline
  SpecKernel UserText SpecUser.
Local Open Scope list_scope.

Lemma comma_join l : join [44] l = comma_list l.
Proof. induction l as [|x [|y l] IH]; [reflexivity..|]. cbn [join comma_list] in *. rewrite IH. reflexivity. Qed.

Section User.
Context {W T : Type} (as_ref : W -> T -> W * option text).

Definition verdict_of (o : option (outcome cerror (list text))) (v : verdict) : Prop :=
  match o with
  | None => v = Unwound
  | Some (Ok l) => v = Used l
  | Some (Err e) => v = Refused e
  | Some (Panic _) => False
  end.
Lemma collect_rules : forall vals w w' o, u_collect as_ref w vals = (w', o) -> exists v, verdict_of o v /\ values_go as_ref w vals w' v.
Proof.
  induction vals as [|v r IH]; intros w w' o H; cbn [u_collect] in H.
  { injection H as <- <-. exists (Used []). split; [reflexivity|constructor]. }
  destruct (as_ref w v) as [w1 [s|]] eqn:E1.
  2:{ injection H as <- <-. exists Unwound. split; [reflexivity|]. now apply vg_panic. }
  destruct (valid_value_cases s) as [(G & Ev)|(e & Ve & Ev)]; rewrite Ev in H.
  2:{ injection H as <- <-. exists (Refused e). split; [reflexivity|]. now apply vg_bad with (s := s). }
  destruct (as_ref w1 v) as [w2 [t|]] eqn:E2.
  2:{ injection H as <- <-. exists Unwound. split; [reflexivity|]. now apply vg_panic_again with (s := s) (w1 := w1). }
  destruct (u_collect as_ref w2 r) as [w3 o3] eqn:E3. destruct (IH _ _ _ E3) as (x & Hx & K).
  destruct o3 as [[l|e|p]|]; cbn in Hx; try contradiction; subst x; injection H as <- <-.
  - exists (Used (t :: l)). split; [reflexivity|]. now apply vg_more with (s := s) (w1 := w1) (w2 := w2).
  - exists (Refused e). split; [reflexivity|]. apply vg_later with (s := s) (w1 := w1) (t := t) (w2 := w2); try assumption. discriminate.
  - exists Unwound. split; [reflexivity|]. apply vg_later with (s := s) (w1 := w1) (t := t) (w2 := w2); try assumption. discriminate.
Qed.
Ltac same_answer :=
  repeat match goal with
  | A : as_ref ?w ?x = ?a, B : as_ref ?w ?x = ?b |- _ =>
      first [discriminate | let K := fresh in assert (K : a = b) by congruence; first [discriminate | injection K as ?; subst; clear B]]
  end.
Lemma values_det w vals w1 v1 : values_go as_ref w vals w1 v1 -> forall w2 v2, values_go as_ref w vals w2 v2 -> w1 = w2 /\ v1 = v2.
Proof.
  induction 1 as [w|w v r w1 P|w v r s w1 e Q Ve|w v r s w1 w2 Q G P|w v r s w1 t w2 w3 l Q G Q2 _ IH|w v r s w1 t w2 w3 x Q G Q2 _ IH Hx];
    intros w9 v9 K; inversion K; clear K; subst; unfold says, panics in *; auto.
  all: repeat match goal with
       | A : as_ref ?w ?x = _, B : as_ref ?w ?x = _ |- _ => rewrite A in B; first [discriminate B | injection B; intros; subst; clear B]
       end; auto.
  all: try solve [exfalso; eapply value_error_not_good; eassumption].
  - split; [reflexivity|]. f_equal. eapply value_error_unique; eassumption.
  - match goal with H : values_go _ _ _ _ _ |- _ => destruct (IH _ _ H) as (-> & E1) end. injection E1 as ->. auto.
  - exfalso. match goal with H : values_go _ _ _ _ ?v |- _ => destruct (IH _ _ H) as (_ & E1) end. subst. match goal with N : forall l, _ <> Used l |- _ => eapply N; reflexivity end.
  - exfalso. match goal with H : values_go _ _ _ _ ?v |- _ => destruct (IH _ _ H) as (_ & E1) end. subst. eapply Hx. first [exact E1|reflexivity].
Qed.

(** ** C100: the builder against any user code. *)
(** [insert_multiple] goes by the rules of SpecUser.v, in every state of user code. *)
Theorem C100_multiple : forall bld w c key vals w' c' r,
  u_multiple as_ref bld w c key vals = (w', c', r) <-> multiple_goes as_ref bld w c key vals w' c' r.
Proof.
  intros bld w c key vals.
  assert (D : forall w' c' r, u_multiple as_ref bld w c key vals = (w', c', r) -> multiple_goes as_ref bld w c key vals w' c' r).
  { intros w' c' r H. unfold u_multiple in H. destruct (as_ref w key) as [w1 [k|]] eqn:Ek.
    2:{ injection H as <- <- <-. now apply mg_panic. }
    destruct (valid_key_cases k) as [(G & Ev)|(e & Ve & Ev)]; rewrite Ev in H.
    2:{ injection H as <- <- <-. now apply mg_key with (k := k). }
    destruct vals as [|v vs]. { injection H as <- <- <-. now apply mg_none. }
    destruct (u_collect as_ref w1 (v :: vs)) as [w2 o] eqn:Ec. destruct (collect_rules _ _ _ _ Ec) as (x & Hx & K).
    destruct o as [[l|e|p]|]; cbn [verdict_of] in Hx; try contradiction; subst x.
    - rewrite comma_join in H. destruct (insert_str bld c (k ++ [61] ++ comma_list l)) as [c2 o2] eqn:Ei. injection H as <- <- <-.
      apply mg_add with (k := k) (w1 := w1) (l := l); try assumption. discriminate.
    - injection H as <- <- <-. apply mg_value with (k := k) (w1 := w1); try assumption. discriminate.
    - injection H as <- <- <-. apply mg_unwound with (k := k) (w1 := w1); try assumption. discriminate. }
  intros w' c' r. split; [apply D|]. intros M.
  destruct (u_multiple as_ref bld w c key vals) as [[w2 c2] r2]. pose proof (D _ _ _ eq_refl) as E2.
  assert (U : w2 = w' /\ c2 = c' /\ r2 = r); [|destruct U as (-> & -> & ->); reflexivity].
  inversion M; subst; inversion E2; subst; unfold says, panics in *;
    repeat match goal with
    | A : as_ref ?w ?x = _, B : as_ref ?w ?x = _ |- _ => rewrite A in B; first [discriminate B | injection B; intros; subst; clear B]
    end; auto; try congruence;
    try solve [exfalso; eapply key_error_not_good; eassumption];
    try match goal with A : values_go _ _ _ _ _, B : values_go _ _ _ _ _ |- _ => destruct (values_det _ _ _ _ A _ _ B) as (? & K0); subst; try discriminate K0; try (injection K0; intros; subst) end;
    auto; try congruence.
  - repeat split; auto. do 2 f_equal. eapply key_error_unique; eassumption.
  - match goal with A : run_op _ _ _ = _, B : run_op _ _ _ = _ |- _ => rewrite A in B; injection B as ? ?; subst end. auto.
Qed.

(** The plain calls on the texts user code gave. *)
Definition plain_of (o : uop (T:=T)) (p : op) : Prop :=
  match o, p with
  | UInsert _ _, OpInsert _ _ | UMultiple _ _, OpStr _ | UStr _, OpStr _ | UInit _, OpInit _ => True
  | UVirtio a b i d, OpVirtio a' b' i' d' => (a, b, i, d) = (a', b', i', d')
  | _, _ => False
  end.
(** Every call either adds nothing, or is a plain call on some text: the builder stays one that plain calls reach. *)
Theorem C100_one_call : forall bld w c o w' c' r,
  run_uop as_ref bld w c o = (w', c', r) ->
  (c' = c /\ r <> Some (Ok tt)) \/ exists p, plain_of o p /\ c' = fst (run_op bld c p) /\ r = Some (snd (run_op bld c p)).
Proof.
  intros bld w c o w' c' r H. destruct o as [k v|k vs|s|s|size base irq id]; cbn [run_uop] in H.
  - unfold u_insert in H. destruct (as_ref w k) as [w1 [kt|]]; [|injection H as <- <- <-; left; split; [reflexivity|discriminate]].
    destruct (as_ref w1 v) as [w2 [vt|]]; [|injection H as <- <- <-; left; split; [reflexivity|discriminate]].
    right. exists (OpInsert kt vt). cbn [plain_of run_op]. unfold insert. split; [trivial|].
    destruct (ctry c (valid_key kt) _) as [c2 o2]. injection H as <- <- <-. auto.
  - apply C100_multiple in H. inversion H; subst; try (left; split; [reflexivity|discriminate]).
    right. exists (OpStr (k0 ++ txt "=" ++ comma_list l)). split; [exact I|].
    match goal with A : run_op _ _ _ = _ |- _ => rewrite A end. auto.
  - unfold u_str in H. destruct (as_ref w s) as [w1 [t|]]; [|injection H as <- <- <-; left; split; [reflexivity|discriminate]].
    right. exists (OpStr t). cbn [plain_of run_op]. destruct (insert_str bld c t) as [c2 o2]. injection H as <- <- <-. auto.
  - unfold u_init in H. destruct (as_ref w s) as [w1 [t|]]; [|injection H as <- <- <-; left; split; [reflexivity|discriminate]].
    right. exists (OpInit t). cbn [plain_of run_op]. destruct (insert_init_args bld c t) as [c2 o2]. injection H as <- <- <-. auto.
  - right. exists (OpVirtio size base irq id). cbn [plain_of run_op]. destruct (add_virtio_mmio_device bld c size base irq id) as [c2 o2].
    injection H as <- <- <-. auto.
Qed.
(** Any history of calls with any user code leaves a builder that plain calls reach: everything proved of
    those (capacity, printable contents, one NUL, ...) holds whatever user code does. *)
Theorem C100_reachable : forall bld w c os w' c',
  reachable bld c -> run_uops as_ref bld w c os = (w', c') -> reachable bld c'.
Proof.
  intros bld w c os w' c' R. revert w c R. induction os as [|o os IH]; intros w c R H; cbn [run_uops] in H.
  { injection H as <- <-. exact R. }
  destruct (run_uop as_ref bld w c o) as [[w1 c1] r1] eqn:E1. refine (IH _ _ _ H).
  destruct (C100_one_call _ _ _ _ _ _ _ E1) as [(-> & _)|(p & _ & -> & _)]; [exact R|].
  destruct R as (k & c0 & ps & Hk & H0 & ->). exists k, c0, (ps ++ [p]). split; [exact Hk|]. split; [exact H0|].
  unfold run_ops. now rewrite fold_left_app.
Qed.
(** For instance: what is serialised fits the capacity and holds one NUL. *)
Theorem C100_capacity : forall bld w k c0 os w' c' v,
  ctor_typed k -> run_ctor k = Ok c0 -> run_uops as_ref bld w c0 os = (w', c') -> cmdline_to_vec c' = Ok v ->
  lenN v <= ctor_cap k.
Proof.
  intros bld w k c0 os w' c' v Hk H0 H Hv.
  assert (P : exists ps, c' = run_ops bld c0 ps).
  { clear Hv. revert H. assert (Q : exists ps, c0 = run_ops bld c0 ps) by (exists []; reflexivity). revert Q.
    generalize c0 at 1 3. intros c Q H. revert w c Q H. induction os as [|o os IH]; intros w c Q H; cbn [run_uops] in H.
    { injection H as <- <-. exact Q. }
    destruct (run_uop as_ref bld w c o) as [[w1 c1] r1] eqn:E1. refine (IH _ _ _ H).
    destruct (C100_one_call _ _ _ _ _ _ _ E1) as [(-> & _)|(p & _ & -> & _)]; [exact Q|].
    destruct Q as (ps & ->). exists (ps ++ [p]). unfold run_ops. now rewrite fold_left_app. }
  destruct P as (ps & ->). eapply C01_capacity_respected; eassumption.
Qed.
(** A call that does not return Ok -- an error, or user code panicked -- leaves the builder as it was. *)
Theorem C100_failure_keeps : forall bld w c o w' c' r,
  reachable bld c -> run_uop as_ref bld w c o = (w', c', r) -> r <> Some (Ok tt) -> c' = c.
Proof.
  intros bld w c o w' c' r R H N. destruct (C100_one_call _ _ _ _ _ _ _ H) as [(E1 & _)|(p & _ & -> & ->)]; [exact E1|].
  destruct (run_op bld c p) as [c1 [[]|e|q]] eqn:E1; cbn [fst snd] in *; [congruence| |].
  - eapply C02_rejected_unchanged. exact E1.
  - exfalso. apply (proj2 (C16_no_panic bld bld c p R) q). now rewrite E1.
Qed.
(** The only panics are user code's. *)
Theorem C100_no_crate_panic : forall bld w c o w' c' p,
  reachable bld c -> run_uop as_ref bld w c o <> (w', c', Some (Panic p)).
Proof.
  intros bld w c o w' c' p R H.
  destruct o as [k v|k vs|s|s|size base irq id].
  2:{ pose proof H as H2. cbn [run_uop] in H2. apply C100_multiple in H2. inversion H2; subst.
      match goal with A : run_op ?b ?c ?p = _ |- _ => pose proof (proj2 (C16_no_panic b b c p R)) as Z; rewrite A in Z end. exact (Z p eq_refl). }
  all: cbn [run_uop] in H; unfold u_insert, u_str, u_init in H;
    repeat match type of H with context [as_ref ?w ?x] => destruct (as_ref w x) as [? [?|]]; try (injection H as <- <- E0; discriminate E0) end.
  - match type of H with context [ctry c (valid_key ?k) _] => match type of H with context [valid_value ?v] => pose proof (proj2 (C16_no_panic bld bld c (OpInsert k v) R) p) as Z; cbn [run_op] in Z; unfold insert in Z end end.
    destruct (ctry c _ _) as [c2 o2]. injection H as _ _ ->. exact (Z eq_refl).
  - match type of H with context [insert_str bld c ?t] => pose proof (proj2 (C16_no_panic bld bld c (OpStr t) R) p) as Z end. cbn [run_op] in Z. destruct (insert_str bld c _) as [c2 o2]. injection H as _ _ ->. exact (Z eq_refl).
  - match type of H with context [insert_init_args bld c ?t] => pose proof (proj2 (C16_no_panic bld bld c (OpInit t) R) p) as Z end. cbn [run_op] in Z. destruct (insert_init_args bld c _) as [c2 o2]. injection H as _ _ ->. exact (Z eq_refl).
  - pose proof (proj2 (C16_no_panic bld bld c (OpVirtio size base irq id) R) p) as Z. cbn [run_op] in Z.
    destruct (add_virtio_mmio_device bld c size base irq id) as [c2 o2]. injection H as _ _ ->. exact (Z eq_refl).
Qed.

(** User code that always gives the same text for a value and never panics: the calls are the plain calls. *)
Definition plain (f : T -> text) (o : uop (T:=T)) : op :=
  match o with
  | UInsert k v => OpInsert (f k) (f v)
  | UMultiple k vs => OpMultiple (f k) (map f vs)
  | UStr s => OpStr (f s)
  | UInit s => OpInit (f s)
  | UVirtio a b i d => OpVirtio a b i d
  end.
Theorem C100_honest : forall f, (forall w x, exists w', as_ref w x = (w', Some (f x))) ->
  forall bld w c o, exists w', run_uop as_ref bld w c o = (w', fst (run_op bld c (plain f o)), Some (snd (run_op bld c (plain f o)))).
Proof.
  intros f Hf bld w c o. destruct o as [k v|k vs|s|s|size base irq id]; cbn [run_uop plain run_op].
  - unfold u_insert. destruct (Hf w k) as (w1 & ->). destruct (Hf w1 v) as (w2 & ->). exists w2. unfold insert.
    destruct (ctry c _ _) as [c2 o2]. reflexivity.
  - unfold u_multiple, insert_multiple. destruct (Hf w k) as (w1 & ->). destruct (valid_key (f k)); cbn [ctry fst snd]; [|eauto..].
    assert (Q : forall l w, exists w', u_collect as_ref w l = (w', Some (collect_values (map f l)))).
    { clear -Hf. induction l as [|x l IH]; intros w; cbn [u_collect map collect_values]; [eauto|].
      destruct (Hf w x) as (w1 & ->). destruct (valid_value (f x)) as [u|e|p]; cbn [obind]; [|eauto..].
      destruct (Hf w1 x) as (w2 & ->). destruct (IH w2) as (w3 & ->). exists w3. destruct (collect_values (map f l)); reflexivity. }
    destruct vs as [|v vs]; [cbn [map fst snd]; eauto|]. destruct (Q (v :: vs) w1) as (w2 & ->). exists w2. cbn [map].
    destruct (collect_values _) as [l|e|p]; cbn [ctry fst snd]; try reflexivity. destruct (insert_str bld c _) as [c2 o2]. reflexivity.
  - unfold u_str. destruct (Hf w s) as (w1 & ->). exists w1. destruct (insert_str bld c (f s)). reflexivity.
  - unfold u_init. destruct (Hf w s) as (w1 & ->). exists w1. destruct (insert_init_args bld c (f s)). reflexivity.
  - exists w. destruct (add_virtio_mmio_device bld c size base irq id). reflexivity.
Qed.
End User.

(** What is asked, and how often: user code that keeps a log of the questions. *)
Section Log.
Context {W T : Type} (as_ref : W -> T -> W * option text).
Definition logging (w : W * list T) (x : T) : (W * list T) * option text :=
  let (w1, a) := as_ref (fst w) x in ((w1, snd w ++ [x]), a).
(** [insert]: key, then value.  [insert_multiple]: the key once, then each value twice, as long as all goes well;
    a prefix of that otherwise. *)
Definition questions (o : uop (T:=T)) : list T :=
  match o with
  | UInsert k v => [k; v]
  | UMultiple k vs => k :: flat_map (fun v => [v; v]) vs
  | UStr s | UInit s => [s]
  | UVirtio _ _ _ _ => []
  end.
Lemma collect_log : forall vals w w' o, u_collect logging w vals = (w', o) ->
  exists asked rest, snd w' = snd w ++ asked /\ flat_map (fun v => [v; v]) vals = asked ++ rest /\ (forall l, o = Some (Ok l) -> rest = []).
Proof.
  induction vals as [|v r IH]; intros w w' o H; cbn [u_collect] in H.
  { injection H as <- <-. exists [], []. rewrite app_nil_r. auto. }
  destruct w as [w lg]. unfold logging in H at 1. cbn [fst snd] in *.
  destruct (as_ref w v) as [w1 [s|]].
  2:{ injection H as <- <-. exists [v], (v :: flat_map (fun v => [v; v]) r). cbn. repeat split; try reflexivity. discriminate. }
  destruct (valid_value s) as [u|e|p].
  2,3: injection H as <- <-; exists [v], (v :: flat_map (fun v => [v; v]) r); cbn; repeat split; try reflexivity; discriminate.
  unfold logging in H at 1. cbn [fst snd] in *. destruct (as_ref w1 v) as [w2 [t|]].
  2:{ injection H as <- <-. exists [v; v], (flat_map (fun v => [v; v]) r). rewrite <- app_assoc. cbn. repeat split; try reflexivity. discriminate. }
  destruct (u_collect logging (w2, (lg ++ [v]) ++ [v]) r) as [w3 o3] eqn:E3. destruct (IH _ _ _ E3) as (asked & rest & E1 & E2 & E4).
  exists ([v; v] ++ asked), rest. cbn [snd] in E1.
  assert (P : snd w3 = lg ++ [v; v] ++ asked) by (rewrite E1, <- !app_assoc; reflexivity).
  assert (P2 : flat_map (fun v => [v; v]) (v :: r) = ([v; v] ++ asked) ++ rest) by (cbn [flat_map]; rewrite E2, app_assoc; reflexivity).
  destruct o3 as [[l|e|p]|]; injection H as <- <-; (split; [exact P|split; [exact P2|]]); intros l'; try discriminate. intros _. eapply E4. reflexivity.
Qed.
Theorem C100_calls : forall bld w lg c o w' lg' c' r,
  run_uop logging bld (w, lg) c o = ((w', lg'), c', r) ->
  exists asked rest, lg' = lg ++ asked /\ questions o = asked ++ rest /\ (r = Some (Ok tt) -> rest = []).
Proof.
  intros bld w lg c o w' lg' c' r H. destruct o as [k v|k vs|s|s|size base irq id]; cbn [run_uop questions] in *.
  - unfold u_insert in H. unfold logging in H at 1. cbn [fst snd] in H. destruct (as_ref w k) as [w1 [kt|]].
    2:{ injection H as <- <- <- <-. exists [k], [v]. repeat split; try reflexivity. discriminate. }
    unfold logging in H at 1. cbn [fst snd] in H. destruct (as_ref w1 v) as [w2 [vt|]].
    + destruct (ctry c _ _) as [c2 o2]. injection H as <- <- <- <-. exists [k; v], []. rewrite <- app_assoc. auto.
    + injection H as <- <- <- <-. exists [k; v], []. rewrite <- app_assoc. auto.
  - unfold u_multiple in H. unfold logging in H at 1. cbn [fst snd] in H. destruct (as_ref w k) as [w1 [kt|]].
    2:{ injection H as <- <- <- <-. exists [k], (flat_map (fun v => [v; v]) vs). repeat split; try reflexivity. discriminate. }
    destruct (valid_key kt).
    2,3: injection H as <- <- <- <-; exists [k], (flat_map (fun v => [v; v]) vs); repeat split; try reflexivity; discriminate.
    destruct vs as [|v vs].
    { injection H as <- <- <- <-. exists [k], []. auto. }
    destruct (u_collect logging (w1, lg ++ [k]) (v :: vs)) as [w2 oc] eqn:Ec.
    destruct (collect_log _ _ _ _ Ec) as (asked & rest & E1 & E2 & E3). cbn [snd] in E1. destruct w2 as [w2 lg2]. cbn [snd] in E1.
    exists (k :: asked), rest.
    assert (P : lg2 = lg ++ k :: asked) by (rewrite E1, <- app_assoc; reflexivity).
    assert (P2 : k :: flat_map (fun v => [v; v]) (v :: vs) = (k :: asked) ++ rest) by (rewrite E2; reflexivity).
    destruct oc as [[l|e|p]|].
    + destruct (insert_str bld c _) as [c2 o2]. injection H as <- <- <- <-. split; [exact P|]. split; [exact P2|]. intros _. eapply E3. reflexivity.
    + injection H as <- <- <- <-. split; [exact P|]. split; [exact P2|]. discriminate.
    + injection H as <- <- <- <-. split; [exact P|]. split; [exact P2|]. discriminate.
    + injection H as <- <- <- <-. split; [exact P|]. split; [exact P2|]. discriminate.
  - unfold u_str in H. unfold logging in H at 1. cbn [fst snd] in H. destruct (as_ref w s) as [w1 [t|]].
    + destruct (insert_str bld c t) as [c2 o2]. injection H as <- <- <- <-. exists [s], []. auto.
    + injection H as <- <- <- <-. exists [s], []. auto.
  - unfold u_init in H. unfold logging in H at 1. cbn [fst snd] in H. destruct (as_ref w s) as [w1 [t|]].
    + destruct (insert_init_args bld c t) as [c2 o2]. injection H as <- <- <- <-. exists [s], []. auto.
    + injection H as <- <- <- <-. exists [s], []. auto.
  - destruct (add_virtio_mmio_device bld c size base irq id) as [c2 o2]. injection H as <- <- <- <-. exists [], []. rewrite app_nil_r. auto.
Qed.
End Log.

(** A value that says "x" when checked and "x init=/bin/sh" when used: [insert_multiple] returns Ok, and the
    kernel reads two parameters where [insert_multiple]'s check should leave one. *)
Definition two_faced (w : nat) (x : bool) : nat * option text :=
  (S w, Some (if x then txt "k" else if Nat.even w then txt "x init=/bin/sh" else txt "x")).
Theorem C100_check_bypassed : exists c',
  u_multiple two_faced true 0%nat (mkCmdline [] [] 100) true [false] = (3%nat, c', Some (Ok tt)) /\
  kernel_reads (boot_args c') = ([(txt "k", Some (txt "x")); (txt "init", Some (txt "/bin/sh"))], None) /\
  snd (run_op true (mkCmdline [] [] 100) (OpMultiple (txt "k") [txt "x init=/bin/sh"])) = Err NoQuoteSpace.
Proof. eexists. split; [vm_compute; reflexivity|]. split; vm_compute; reflexivity. Qed.

(** Non-vacuity: user code that panics at its fourth answer, on a non-trivial history. *)
Definition moody (w : nat) (x : text) : nat * option text := (S w, if Nat.eqb w 3 then None else Some x).
Example C100_applies :
  run_uops moody true 0%nat (mkCmdline [] [] 100) [UInsert (txt "a") (txt "1"); UMultiple (txt "b") [txt "2"; txt "3"]; UStr (txt "quiet")]
    = (5%nat, mkCmdline (txt "a=1 quiet") [] 100) /\
  reachable true (mkCmdline [] [] 100).
Proof. split; [vm_compute; reflexivity|]. exists (New 100), (mkCmdline [] [] 100), []. repeat split. Qed.
Example C100_multiple_applies : multiple_goes moody true 7%nat (mkCmdline [] [] 100) (txt "b") [txt "2"; txt "3"] 12%nat
  (mkCmdline (txt "b=2,3") [] 100) (Some (Ok tt)).
Proof. apply C100_multiple. vm_compute. reflexivity. Qed.
Example C100_honest_applies : forall w (x : text), exists w', (fun (w : nat) (x : text) => (S w, Some x)) w x = (w', Some ((fun y => y) x)).
Proof. intros w x. exists (S w). reflexivity. Qed.
