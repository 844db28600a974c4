(** * Props_LawsBoot: property C96.

    Laws relating different ways of building boot parameters. *)
From Coq Require Import Permutation.
From Verif Require Import Base Base_proofs Io Mem SpecMem SpecBoot BootParams Boot_proofs Configurators Props_Boot
  SpecParams Props_Params Text Cmdline SpecCmdline SpecLaws.

(** The list a call is about. *)
Definition about (w : which) (c : bcall) : Prop := match c with BSet w' _ _ | BAdd w' _ _ => w' = w end.
(** [p]'s header, with the sections of [p1] and the modules of [p2]. *)
Definition sections_and_modules (p p1 p2 : boot_info) : boot_info :=
  mkBoot (header p) (header_start p) (sections p1) (sections_start p1) (modules p2) (modules_start p2).

Lemma call_sections bld p q c p' o : about Sections c -> call bld p c = (p', o) ->
  sections q = sections p -> sections_start q = sections_start p ->
  call bld q c = (sections_and_modules q p' q, o) /\ p' = sections_and_modules p p' p.
Proof.
  intros A E E1 E2. destruct c as [w es a|w e addr]; cbn [about] in A; subst w; cbn [call] in *.
  - injection E as <- <-. split; reflexivity.
  - unfold add, add_section in *. rewrite E1, E2.
    destruct (add_to_list bld e addr (or_empty (sections p)) (sections_start p)) as [[v s] r].
    injection E as <- <-. split; reflexivity.
Qed.
Lemma call_modules bld p q c p' o : about Modules c -> call bld p c = (p', o) ->
  modules q = modules p -> modules_start q = modules_start p ->
  call bld q c = (sections_and_modules q q p', o) /\ p' = sections_and_modules p p p'.
Proof.
  intros A E E1 E2. destruct c as [w es a|w e addr]; cbn [about] in A; subst w; cbn [call] in *.
  - injection E as <- <-. split; reflexivity.
  - unfold add, add_module in *. rewrite E1, E2.
    destruct (add_to_list bld e addr (or_empty (modules p)) (modules_start p)) as [[v s] r].
    injection E as <- <-. split; reflexivity.
Qed.

Lemma params_step bld p c cs rs fin :
  crate_params bld p (c :: cs) = (rs, fin) <->
  (exists p' q, call bld p c = (p', Panic q) /\ rs = [Aborted] /\ fin = None) \/
  (exists p' o rs', call bld p c = (p', o) /\ (forall q, o <> Panic q) /\ rs = reply_of o :: rs' /\
     crate_params bld p' cs = (rs', fin)).
Proof.
  cbn [crate_params]. destruct (call bld p c) as [p' o] eqn:E. split.
  - intros H. destruct o as [x|x|q].
    + right. destruct (crate_params bld p' cs) as [rs' f] eqn:E2. injection H as <- <-.
      exists p', (Ok x), rs'. split; [reflexivity|]. split; [discriminate|]. split; [reflexivity|exact E2].
    + right. destruct (crate_params bld p' cs) as [rs' f] eqn:E2. injection H as <- <-.
      exists p', (Err x), rs'. split; [reflexivity|]. split; [discriminate|]. split; [reflexivity|exact E2].
    + left. injection H as <- <-. exists p', q. split; [reflexivity|]. split; reflexivity.
  - intros [(p1 & q & H & -> & ->)|(p1 & o1 & rs' & H & N0 & -> & H2)]; [injection H as <- ->; reflexivity|injection H as <- <-].
    destruct o as [x|x|q]; [| |now destruct (N0 q)]; rewrite H2; reflexivity.
Qed.

(** ** C96: sections and modules do not disturb each other *)
(** If the section calls alone and the module calls alone run to the end, so does every
    interleaving of them, each call with the same reply, and the result is the two side by side. *)
Lemma independent bld ss ms cs : shuffle ss ms cs -> forall p r1 p1 r2 p2,
  Forall (about Sections) ss -> Forall (about Modules) ms ->
  crate_params bld p ss = (r1, Some p1) -> crate_params bld p ms = (r2, Some p2) ->
  exists rs, crate_params bld p cs = (rs, Some (sections_and_modules p p1 p2)) /\
    shuffle (combine ss r1) (combine ms r2) (combine cs rs) /\ length rs = length cs /\
    (* more generally from any parameters with these lists *)
    length r1 = length ss /\ length r2 = length ms.
Proof.
  intros Sh.
  assert (G : forall p q r1 p1 r2 p2,
    Forall (about Sections) ss -> Forall (about Modules) ms ->
    crate_params bld p ss = (r1, Some p1) -> crate_params bld q ms = (r2, Some p2) ->
    exists rs, crate_params bld (sections_and_modules p p q) cs = (rs, Some (sections_and_modules p p1 p2)) /\
      shuffle (combine ss r1) (combine ms r2) (combine cs rs) /\ length rs = length cs /\
      length r1 = length ss /\ length r2 = length ms).
  { induction Sh as [|c ss ms cs Sh IH|c ss ms cs Sh IH]; intros p q r1 p1 r2 p2 HS HM E1 E2.
    - injection E1 as <- <-. injection E2 as <- <-. exists []. split; [reflexivity|]. split; [constructor|]. auto.
    - inversion HS as [|? ? A HS']; subst. apply params_step in E1 as [(? & ? & _ & _ & D)|(p' & o & rs' & C & N0 & -> & R)]; [discriminate|].
      destruct (call_sections bld p (sections_and_modules p p q) c p' o A C eq_refl eq_refl) as [C2 F].
      destruct (IH p' q rs' p1 r2 p2 HS' HM R E2) as (rs & I1 & I2 & I3 & I4 & I5).
      exists (reply_of o :: rs). split.
      + apply params_step. right. eexists _, o, rs. split; [exact C2|]. split; [exact N0|]. split; [reflexivity|].
        replace (sections_and_modules (sections_and_modules p p q) p' (sections_and_modules p p q))
          with (sections_and_modules p' p' q) by (rewrite F; reflexivity).
        rewrite I1. rewrite F. reflexivity.
      + cbn [combine length]. split; [constructor; exact I2|]. split; [now rewrite I3|]. split; [now rewrite I4|exact I5].
    - inversion HM as [|? ? A HM']; subst. apply params_step in E2 as [(? & ? & _ & _ & D)|(p' & o & rs' & C & N0 & -> & R)]; [discriminate|].
      destruct (call_modules bld q (sections_and_modules p p q) c p' o A C eq_refl eq_refl) as [C2 F].
      destruct (IH p p' r1 p1 rs' p2 HS HM' E1 R) as (rs & I1 & I2 & I3 & I4 & I5).
      exists (reply_of o :: rs). split.
      + apply params_step. right. eexists _, o, rs. split; [exact C2|]. split; [exact N0|]. split; [reflexivity|].
        replace (sections_and_modules (sections_and_modules p p q) (sections_and_modules p p q) p')
          with (sections_and_modules p p p') by reflexivity.
        exact I1.
      + cbn [combine length]. split; [constructor; exact I2|]. split; [now rewrite I3|]. split; [exact I4|now rewrite I5]. }
  intros p r1 p1 r2 p2 HS HM E1 E2. destruct (G p p r1 p1 r2 p2 HS HM E1 E2) as (rs & H).
  exists rs. destruct p. exact H.
Qed.

Theorem C96_independent : forall bld p ss ms cs r1 p1 r2 p2,
  Forall (about Sections) ss -> Forall (about Modules) ms -> shuffle ss ms cs ->
  crate_params bld p ss = (r1, Some p1) -> crate_params bld p ms = (r2, Some p2) ->
  exists rs, crate_params bld p cs = (rs, Some (sections_and_modules p p1 p2)) /\
    length rs = length cs /\ shuffle (combine ss r1) (combine ms r2) (combine cs rs).
Proof.
  intros bld p ss ms cs r1 p1 r2 p2 HS HM Sh E1 E2.
  destruct (independent bld ss ms cs Sh p r1 p1 r2 p2 HS HM E1 E2) as (rs & A & B & C & _).
  exists rs. split; [exact A|]. split; [exact C|exact B].
Qed.

(** And an interleaving aborts exactly if one of the two would. *)
Theorem C96_independent_abort : forall bld p ss ms cs,
  Forall (about Sections) ss -> Forall (about Modules) ms -> shuffle ss ms cs ->
  (snd (crate_params bld p cs) = None <->
   snd (crate_params bld p ss) = None \/ snd (crate_params bld p ms) = None).
Proof.
  intros bld p ss ms cs HS HM Sh. split.
  - intros H. destruct (crate_params bld p ss) as [r1 [p1|]] eqn:E1; [|left; reflexivity].
    destruct (crate_params bld p ms) as [r2 [p2|]] eqn:E2; [|right; reflexivity].
    destruct (C96_independent bld p ss ms cs r1 p1 r2 p2 HS HM Sh E1 E2) as (rs & A & _). rewrite A in H. discriminate.
  - assert (G : forall p q, snd (crate_params bld p ss) = None \/ snd (crate_params bld q ms) = None ->
               snd (crate_params bld (sections_and_modules p p q) cs) = None).
    { clear p. induction Sh as [|c ss ms cs Sh IH|c ss ms cs Sh IH]; intros p q H.
      - destruct H; discriminate.
      - inversion HS as [|? ? A HS']; subst.
        destruct (call bld p c) as [p' o] eqn:C.
        destruct (call_sections bld p (sections_and_modules p p q) c p' o A C eq_refl eq_refl) as [C2 F].
        cbn [crate_params] in *. rewrite C in H. rewrite C2.
        assert (X : snd (crate_params bld p' ss) = None \/ snd (crate_params bld q ms) = None ->
          snd (crate_params bld (sections_and_modules (sections_and_modules p p q) p' (sections_and_modules p p q)) cs) = None).
        { intros X. replace (sections_and_modules (sections_and_modules p p q) p' (sections_and_modules p p q))
            with (sections_and_modules p' p' q) by (rewrite F; reflexivity). apply IH; assumption. }
        destruct o as [x|x|x]; [| |reflexivity];
          destruct (crate_params bld p' ss) as [ra fa], (crate_params bld (sections_and_modules (sections_and_modules p p q) p' (sections_and_modules p p q)) cs) as [rb fb];
          cbn [snd] in *; exact (X H).
      - inversion HM as [|? ? A HM']; subst.
        destruct (call bld q c) as [p' o] eqn:C.
        destruct (call_modules bld q (sections_and_modules p p q) c p' o A C eq_refl eq_refl) as [C2 F].
        cbn [crate_params] in *. rewrite C in H. rewrite C2.
        assert (X : snd (crate_params bld p ss) = None \/ snd (crate_params bld p' ms) = None ->
          snd (crate_params bld (sections_and_modules (sections_and_modules p p q) (sections_and_modules p p q) p') cs) = None).
        { intros X. replace (sections_and_modules (sections_and_modules p p q) (sections_and_modules p p q) p')
            with (sections_and_modules p p p') by reflexivity. apply IH; assumption. }
        destruct o as [x|x|x]; [| |reflexivity];
          destruct (crate_params bld p' ms) as [ra fa], (crate_params bld (sections_and_modules (sections_and_modules p p q) (sections_and_modules p p q) p') cs) as [rb fb];
          cbn [snd] in *; exact (X H). }
    intros H. specialize (G p p H). destruct p. exact G.
Qed.

(** ** C96: replacing a list forgets its history *)
Theorem C96_set_forgets : forall bld w p cs rs p1 es a,
  Forall (about w) cs -> crate_params bld p cs = (rs, Some p1) ->
  crate_params bld p1 [BSet w es a] = crate_params bld p [BSet w es a].
Proof.
  intros bld w p cs. revert p. induction cs as [|c cs IH]; intros p rs p1 es a H E.
  - injection E as <- <-. reflexivity.
  - inversion H as [|? ? A H']; subst.
    apply params_step in E as [(? & ? & _ & _ & D)|(p' & o & rs' & C & N0 & -> & R)]; [discriminate|].
    rewrite (IH p' rs' p1 es a H' R). destruct w.
    + destruct (call_sections bld p p c p' o A C eq_refl eq_refl) as [_ F]. rewrite F. reflexivity.
    + destruct (call_modules bld p p c p' o A C eq_refl eq_refl) as [_ F]. rewrite F. reflexivity.
Qed.

(** ** C96: elements at their own addresses can be added in any order *)
Definition with_list (w : which) (p : boot_info) (v : bytes) (s : N) : boot_info :=
  match w with
  | Sections => mkBoot (header p) (header_start p) (Some v) (Some s) (modules p) (modules_start p)
  | Modules => mkBoot (header p) (header_start p) (sections p) (sections_start p) (Some v) (Some s)
  end.
Lemma step_add bld w p e addr s :
  sized p -> call_sized (BAdd w e addr) -> start_with (start_of w p) addr = Some s ->
  s + lenN (contents (list_of w p)) < 2 ^ 64 ->
  let a := match addr with Some a => a | None => s + lenN (contents (list_of w p)) end in
  s <= a -> a - s + lenN e < 2 ^ 63 ->
  exists v', call bld p (BAdd w e addr) = (with_list w p v' s, Ok a) /\
    placed (contents (list_of w p)) (a - s) e v' /\ sized (with_list w p v' s).
Proof.
  intros Hs Hc St L a G1 G2. cbn [call]. destruct (add w bld p e addr) as [p' o] eqn:E.
  destruct (add_spec _ _ _ _ _ _ _ (sized_call _ _ _ _ Hs Hc) E) as (Sb & v' & Lv & Sv & Hx). cbv zeta in Hx.
  rewrite St in *.
  destruct Hx as [(X & _)|(s0 & X & Hx)]; [discriminate|]. injection X as <-.
  destruct Hx as [(X & _)|(_ & [(X & _)|(_ & [(X & _)|(_ & -> & P)])])]; [lia|fold a in X; lia|fold a in X; lia|].
  assert (p' = with_list w p v' s).
  { rewrite (same_but_eq w p p' v' (Some s) Sb Lv Sv). destruct w; reflexivity. }
  subst p'. exists v'. split; [reflexivity|]. split; [exact P|].
  exact (call_keeps_sized bld p (BAdd w e addr) _ _ Hs Hc E ltac:(discriminate)).
Qed.

(** Pointwise equality of byte strings. *)
Lemma bytes_ext (v1 v2 : bytes) : lenN v1 = lenN v2 ->
  (forall j, j < lenN v1 -> nth_error v1 (N.to_nat j) = nth_error v2 (N.to_nat j)) -> v1 = v2.
Proof.
  intros L H.
  assert (X : forall n, nth_error v1 n = nth_error v2 n).
  { intros n. destruct (N.lt_ge_cases (N.of_nat n) (lenN v1)) as [G|G].
    - specialize (H (N.of_nat n) G). rewrite Nat2N.id in H. exact H.
    - rewrite (proj2 (nth_error_None v1 n)), (proj2 (nth_error_None v2 n)); [reflexivity|unfold lenN in *; lia|unfold lenN in *; lia]. }
  clear - X. revert v2 X. induction v1 as [|x v1 IH]; intros [|y v2] X; [reflexivity| | |].
  - discriminate (X 0%nat).
  - discriminate (X 0%nat).
  - f_equal; [pose proof (X 0%nat) as Y; cbn in Y; congruence|]. apply IH. intros n. exact (X (S n)).
Qed.

Lemma placed_swap v o1 e1 o2 e2 v1 v12 v2 v21 : apart o1 (lenN e1) o2 (lenN e2) ->
  placed v o1 e1 v1 -> placed v1 o2 e2 v12 -> placed v o2 e2 v2 -> placed v2 o1 e1 v21 -> v12 = v21.
Proof.
  intros Ap (L1 & H1) (L12 & H12) (L2 & H2) (L21 & H21). apply bytes_ext; [lia|].
  intros j Hj. rewrite (H12 j Hj), (H21 j ltac:(lia)).
  destruct (N.leb_spec o2 j), (N.ltb_spec j (o2 + lenN e2)), (N.leb_spec o1 j), (N.ltb_spec j (o1 + lenN e1)); cbn [andb];
    try (exfalso; unfold apart in Ap; lia);
    destruct (N.ltb_spec j (lenN v1)); destruct (N.ltb_spec j (lenN v2));
    try rewrite (H1 j) by lia; try rewrite (H2 j) by lia;
    repeat match goal with |- context [N.leb ?a ?b] => destruct (N.leb_spec a b) end;
    repeat match goal with |- context [N.ltb ?a ?b] => destruct (N.ltb_spec a b) end; cbn [andb];
    try reflexivity; try (exfalso; lia).
Qed.

Definition add_calls (w : which) (items : list (N * bytes)) : list bcall :=
  map (fun i => BAdd w (snd i) (Some (fst i))) items.
(** An item is at or after the start [s], and ends within the limits. *)
Definition within (s : N) (i : N * bytes) : Prop :=
  s <= fst i /\ fst i - s + lenN (snd i) < 2 ^ 63 /\ fst i + lenN (snd i) < 2 ^ 64.
Definition items_apart (i j : N * bytes) : Prop := apart (fst i) (lenN (snd i)) (fst j) (lenN (snd j)).

Inductive stored (s : N) : bytes -> list (N * bytes) -> bytes -> Prop :=
| st_nil v : stored s v [] v
| st_cons v i items v1 v' : placed v (fst i - s) (snd i) v1 -> stored s v1 items v' -> stored s v (i :: items) v'.

Lemma list_with w p v s : list_of w (with_list w p v s) = Some v /\ start_of w (with_list w p v s) = Some s.
Proof. destruct w; split; reflexivity. Qed.
Lemma with_with w p v s v' s' : with_list w (with_list w p v s) v' s' = with_list w p v' s'.
Proof. destruct w; reflexivity. Qed.
Lemma with_self w p s v : list_of w p = Some v -> start_of w p = Some s -> with_list w p v s = p.
Proof. destruct p, w; cbn; intros -> ->; reflexivity. Qed.

Lemma adds_stored bld w s items : forall p v, list_of w p = Some v ->
  sized p -> start_of w p = Some s -> s + lenN v < 2 ^ 64 -> Forall (within s) items ->
  exists v', crate_params bld p (add_calls w items) = (map (fun i => Added (fst i)) items, Some (with_list w p v' s)) /\
    stored s v items v'.
Proof.
  induction items as [|[a e] items IH]; intros p v Lp Hs St L W.
  - exists v. split; [|constructor]. cbn. now rewrite with_self.
  - inversion W as [|? ? (W1 & W2 & W3) W']; subst. cbn [fst snd] in *.
    assert (LS : contents (list_of w p) = v) by now rewrite Lp.
    destruct (step_add bld w p e (Some a) s Hs) as (v1 & C & P & Hs1).
    { split; [|intros x X; injection X as <-]; [|lia]. change (2^63) with 9223372036854775808 in *. lia. }
    { now rewrite St. } { now rewrite LS. } { exact W1. } { exact W2. }
    rewrite LS in P. destruct (list_with w p v1 s) as [L1 S1].
    destruct (IH (with_list w p v1 s) v1 L1 Hs1 S1) as (v' & R & Sd).
    { destruct P as [P _]. rewrite P. lia. } { exact W'. }
    exists v'. split; [|econstructor; [exact P|exact Sd]].
    apply params_step. right. eexists _, _, _. split; [exact C|]. split; [discriminate|]. split; [reflexivity|].
    rewrite with_with in R. exact R.
Qed.

Lemma stored_det s v items v1 : stored s v items v1 -> forall v2, stored s v items v2 -> v1 = v2.
Proof.
  induction 1 as [v|v i items v0 v' P St IH]; intros v2 H.
  - inversion H; subst. reflexivity.
  - inversion H as [|? ? ? w0 ? P2 St2]; subst. rewrite (placed_det _ _ _ _ _ P2 P) in St2. exact (IH _ St2).
Qed.
Lemma apart_shift s i j : s <= fst i -> s <= fst j -> items_apart i j ->
  apart (fst i - s) (lenN (snd i)) (fst j - s) (lenN (snd j)).
Proof. unfold items_apart, apart. lia. Qed.
Lemma items_apart_sym i j : items_apart i j -> items_apart j i.
Proof. unfold items_apart, apart. lia. Qed.
Lemma ordpairs_perm {T} (R : T -> T -> Prop) (Sy : forall x y, R x y -> R y x) l l' :
  Permutation l l' -> ForallOrdPairs R l -> ForallOrdPairs R l'.
Proof.
  induction 1 as [|x l l' P IH|x y l|l l' l'' P1 IH1 P2 IH2]; intros H.
  - exact H.
  - inversion H as [|? ? H1 H2]; subst. constructor; [|exact (IH H2)].
    eapply Permutation_Forall; eassumption.
  - inversion H as [|? ? H1 H2]; subst. inversion H1 as [|? ? H3 H4]; subst. inversion H2 as [|? ? H5 H6]; subst.
    constructor; [constructor; [exact (Sy _ _ H3)|exact H5]|]. constructor; assumption.
  - auto.
Qed.
Lemma placed_exists v o e : exists v', placed v o e v'.
Proof.
  exists (map (fun j => if (o <=? j) && (j <? o + lenN e) then nth (N.to_nat (j - o)) e x00
                        else nth (N.to_nat j) v x00)
            (map N.of_nat (seq 0 (N.to_nat (N.max (lenN v) (o + lenN e)))))).
  assert (L : lenN (map (fun j => if (o <=? j) && (j <? o + lenN e) then nth (N.to_nat (j - o)) e x00
                        else nth (N.to_nat j) v x00)
            (map N.of_nat (seq 0 (N.to_nat (N.max (lenN v) (o + lenN e)))))) = N.max (lenN v) (o + lenN e)).
  { unfold lenN at 1. rewrite !map_length, seq_length. lia. }
  split; [exact L|]. intros j Hj. rewrite L in Hj.
  rewrite nth_error_map, nth_error_map.
  rewrite (nth_error_nth' _ 0%nat) by (rewrite seq_length; lia). rewrite seq_nth by lia. cbn [option_map].
  replace (N.of_nat (0 + N.to_nat j)) with j by lia.
  destruct (N.leb_spec o j), (N.ltb_spec j (o + lenN e)); cbn [andb].
  2,3,4: destruct (N.ltb_spec j (lenN v));
    [symmetry; apply nth_error_nth'; unfold lenN in *; lia|rewrite nth_overflow by (unfold lenN in *; lia); reflexivity].
  symmetry. apply nth_error_nth'. unfold lenN in *. lia.
Qed.
Lemma stored_perm s items items' : Permutation items items' -> Forall (within s) items ->
  ForallOrdPairs items_apart items -> forall v v1, stored s v items v1 -> stored s v items' v1.
Proof.
  induction 1 as [|x l l' P IH|x y l|l l' l'' P1 IH1 P2 IH2]; intros W A v v1 H.
  - exact H.
  - inversion H; subst. inversion W; subst. inversion A; subst. econstructor; [eassumption|]. auto.
  - inversion H as [|? ? ? va ? Pa Ha]; subst. inversion Ha as [|? ? ? vb ? Pb Hb]; subst.
    inversion W as [|? ? Wy W2]; subst. inversion W2 as [|? ? Wx W3]; subst.
    inversion A as [|? ? A1 A2]; subst. inversion A1 as [|? ? A3 A4]; subst.
    destruct (placed_exists v (fst x - s) (snd x)) as [vx Px].
    destruct (placed_exists vx (fst y - s) (snd y)) as [vxy Pxy].
    assert (vb = vxy).
    { eapply placed_swap; [|exact Pa|exact Pb|exact Px|exact Pxy].
      apply apart_shift; [apply Wy|apply Wx|exact A3]. }
    subst vxy. econstructor; [exact Px|]. econstructor; [exact Pxy|exact Hb].
  - apply IH2; [eapply Permutation_Forall; eassumption|eapply ordpairs_perm; [exact items_apart_sym|eassumption|eassumption]|].
    apply IH1; assumption.
Qed.

Theorem C96_any_order : forall bld w p s v items items',
  sized p -> list_of w p = Some v -> start_of w p = Some s -> s + lenN v < 2 ^ 64 ->
  Forall (within s) items -> ForallOrdPairs items_apart items -> Permutation items items' ->
  exists p', crate_params bld p (add_calls w items) = (map (fun i => Added (fst i)) items, Some p') /\
             crate_params bld p (add_calls w items') = (map (fun i => Added (fst i)) items', Some p').
Proof.
  intros bld w p s v items items' Hs Lp St L W A P.
  destruct (adds_stored bld w s items p v Lp Hs St L W) as (v1 & E1 & S1).
  destruct (adds_stored bld w s items' p v Lp Hs St L (Permutation_Forall P W)) as (v2 & E2 & S2).
  rewrite (stored_det _ _ _ _ S2 _ (stored_perm _ _ _ P W A _ _ S1)) in E2.
  exists (with_list w p v1 s). split; assumption.
Qed.
(** Overlapping elements: the later one wins, so there order matters. *)
Example C96_overlap_refuted : exists p items items', sized p /\ Permutation items items' /\
  Forall (within 0x1000) items /\
  snd (crate_params true p (add_calls Modules items)) <> snd (crate_params true p (add_calls Modules items')).
Proof.
  exists (mkBoot [] 0 None None (Some []) (Some 0x1000)), [(0x1000, [xaa; xaa]); (0x1001, [xbb])], [(0x1001, [xbb]); (0x1000, [xaa; xaa])].
  split. { intros [|]; (split; [red; cbn [fst snd]; repeat split; vm_compute; congruence|]); cbn; intros s E; [discriminate|]. injection E as <-. lia. }
  split; [apply perm_swap|]. split; [repeat constructor; cbn; lia|]. vm_compute. discriminate.
Qed.

(** ** C96: one element after the other, or all at once *)
Fixpoint prefix_addresses (a : N) (es : list bytes) : list reply :=
  match es with [] => [] | e :: es' => Added a :: prefix_addresses (a + lenN e) es' end.
Lemma appends bld w s es : forall p v, list_of w p = Some v -> start_of w p = Some s -> sized p ->
  s + lenN v + lenN (concat es) < 2 ^ 64 -> lenN v + lenN (concat es) < 2 ^ 63 ->
  crate_params bld p (map (fun e => BAdd w e None) es) =
    (prefix_addresses (s + lenN v) es, Some (with_list w p (v ++ concat es) s)).
Proof.
  induction es as [|e es IH]; intros p v Lp St Hs B1 B2.
  - cbn [map concat prefix_addresses crate_params]. rewrite app_nil_r, with_self by assumption. reflexivity.
  - cbn [concat] in B1, B2. rewrite lenN_app in B1, B2.
    assert (LS : contents (list_of w p) = v) by now rewrite Lp.
    destruct (step_add bld w p e None s Hs) as (v1 & C & P & Hs1).
    { split; [|discriminate]. change (2^63) with 9223372036854775808 in *. lia. }
    { now rewrite St. } { rewrite LS. lia. } { cbn. lia. } { rewrite LS. cbn. lia. }
    rewrite LS in P, C. cbv iota in P, C. replace (s + lenN v - s) with (lenN v) in P by lia. apply placed_end in P. subst v1.
    cbn [map]. apply params_step. right. eexists _, _, _. split; [exact C|]. split; [discriminate|].
    split; [reflexivity|].
    destruct (list_with w p (v ++ e) s) as [L1 S1].
    rewrite (IH _ (v ++ e) L1 S1 Hs1) by (rewrite lenN_app; lia).
    rewrite with_with, lenN_app, <- app_assoc, N.add_assoc. reflexivity.
Qed.

Theorem C96_one_by_one : forall bld w p e es a,
  sized p -> list_of w p = None -> start_of w p = None ->
  a + lenN (concat (e :: es)) < 2 ^ 64 -> lenN (concat (e :: es)) < 2 ^ 63 ->
  crate_params bld p (BAdd w e (Some a) :: map (fun x => BAdd w x None) es) =
    (prefix_addresses a (e :: es), snd (crate_params bld p [BSet w (e :: es) a])).
Proof.
  intros bld w p e es a Hs Lp St B1 B2. cbn [concat] in B1, B2. rewrite lenN_app in B1, B2.
  assert (LS : contents (list_of w p) = []) by now rewrite Lp.
  destruct (step_add bld w p e (Some a) a Hs) as (v1 & C & P & Hs1).
  { split; [|intros x X; injection X as <-; lia]. change (2^63) with 9223372036854775808 in *. lia. }
  { now rewrite St. } { rewrite LS. change (lenN (@nil byte)) with 0. lia. } { lia. } { lia. }
  rewrite LS in P. replace (a - a) with (lenN (@nil byte)) in P by (change (lenN (@nil byte)) with 0; lia). apply placed_end in P. subst v1.
  apply params_step. right. eexists _, _, _. split; [exact C|]. split; [discriminate|]. split; [reflexivity|].
  destruct (list_with w p e a) as [L1 S1]. cbn [app] in *.
  rewrite (appends bld w a es _ e L1 S1 Hs1) by lia. rewrite with_with. destruct w; reflexivity.
Qed.

Example C96_applies : forall bld,
  let p := bp_new [x01] 0x1000 in
  crate_params bld p [BAdd Sections [x01] (Some 0x2000); BAdd Modules [xaa] (Some 0x3000);
                      BAdd Sections [x02; x03] None; BSet Modules [[xbb]] 0x4000]
  = ([Added 0x2000; Added 0x3000; Added 0x2001; Added 0x4000],
     Some (mkBoot [x01] 0x1000 (Some [x01; x02; x03]) (Some 0x2000) (Some [xbb]) (Some 0x4000))) /\
  crate_params bld p [BSet Sections [[x01]; [x02; x03]] 0x2000; BSet Modules [[xbb]] 0x4000]
  = ([Added 0x2000; Added 0x4000],
     Some (mkBoot [x01] 0x1000 (Some [x01; x02; x03]) (Some 0x2000) (Some [xbb]) (Some 0x4000))).
Proof. intros [|]; split; vm_compute; reflexivity. Qed.
