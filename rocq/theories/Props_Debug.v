(** * Props_Debug: what [{:?}] prints identifies what is printed (C113).

    [{:?}] is what [unwrap], [expect], [assert_eq!] and log messages show.  Vocabulary: characters and
    text as in Text.v; [readable] below. *)
From Verif Require Import Base Base_proofs Io Mem SpecMem SpecFile File_proofs Layout SpecAbi Layout_proofs Props_Bytes Text Cmdline
  SpecCmdline Text_proofs Loader Elf SpecElf BzImage SpecBz Bz_proofs Pe SpecPe BootParams Configurators SpecVmm Demo_elf Props_Elf Props_Bz
  Props_Pe Derived Props_Derived DebugText.
Local Open Scope list_scope.

(** One line without control characters. *)
Definition readable (s : text) : Prop := forall c, In c s -> 32 <= c /\ c <> 127.

(** ** Numbers *)
Definition no_digit (s : text) : Prop := forall c r, s = c :: r -> dec_digit c = None.
Lemma dec_prefix x y s s' : no_digit s -> no_digit s' -> fmt_dec x ++ s = fmt_dec y ++ s' -> x = y /\ s = s'.
Proof.
  intros H H' E. pose proof (fmt_dec_read x s H) as R. rewrite E, (fmt_dec_read y s' H') in R. injection R as -> ->. auto.
Qed.
Lemma hex_prefix x y s s' : (forall c r, s = c :: r -> hex_digit c = None) -> (forall c r, s' = c :: r -> hex_digit c = None) ->
  fmt_hex x ++ s = fmt_hex y ++ s' -> x = y /\ s = s'.
Proof.
  intros H H' E. pose proof (fmt_hex_read x s H) as R. rewrite E, (fmt_hex_read y s' H') in R. injection R as -> ->. auto.
Qed.

(** ** Strings: for every table of printable characters, escaping loses nothing. *)
Lemma escape_prefix pr c d s s' : escape_char pr c ++ s = escape_char pr d ++ s' -> c = d /\ s = s'.
Proof.
  assert (U : forall x y s s', escape_unicode x ++ s = escape_unicode y ++ s' -> x = y /\ s = s').
  { intros x y u u' E. unfold escape_unicode in E. cbn [app] in E. injection E as E. rewrite <- !app_assoc in E.
    apply hex_prefix in E; [destruct E as [-> E]; injection E as ->; auto| |];
      intros c0 r0 E0; cbn in E0; injection E0 as <- _; reflexivity. }
  unfold escape_char.
  repeat match goal with |- context [if ?x =? ?y then _ else _] => destruct (N.eqb_spec x y) as [?|?] end; subst;
  repeat match goal with |- context [if ?x <? ?y then _ else _] => destruct (N.ltb_spec x y) as [?|?] end;
  repeat match goal with |- context [if pr ?x then _ else _] => destruct (pr x) end;
  try lia; try (intros X; apply U in X; exact X); unfold escape_unicode; cbn [app]; intros X;
  try (injection X as X); subst; auto; try lia; try discriminate; try congruence.
Qed.
Lemma escape_no_quote pr c u v : escape_char pr c ++ u <> 34 :: v.
Proof.
  unfold escape_char.
  repeat match goal with |- context [if ?x =? ?y then _ else _] => destruct (N.eqb_spec x y) as [?|?] end; subst;
  repeat match goal with |- context [if ?x <? ?y then _ else _] => destruct (N.ltb_spec x y) as [?|?] end;
  repeat match goal with |- context [if pr ?x then _ else _] => destruct (pr x) end;
  unfold escape_unicode; cbn [app]; intros X; try discriminate; injection X as X; lia.
Qed.
Lemma debug_str_prefix pr s : forall t u v, debug_str pr s ++ u = debug_str pr t ++ v -> s = t /\ u = v.
Proof.
  unfold debug_str. cbn [app]. intros t u v X. injection X as X. rewrite <- !app_assoc in X. cbn [app] in X. revert t X.
  induction s as [|c s IH]; intros [|d t] X; cbn [flat_map] in X; rewrite <- ?app_assoc in X; cbn [app] in X.
  - injection X as ->. auto.
  - symmetry in X. apply escape_no_quote in X as [].
  - apply escape_no_quote in X as [].
  - apply escape_prefix in X as [-> X]. apply IH in X as [-> ->]. auto.
Qed.
Theorem C113_strings : forall pr s t, debug_str pr s = debug_str pr t -> s = t.
Proof. intros pr s t X. apply (debug_str_prefix pr s t [] []). now rewrite X. Qed.

Lemma hex_readable n : readable (fmt_hex n).
Proof.
  intros c Hc. destruct (fmt_chars 16 n ltac:(lia) ltac:(lia)) as (F & _). rewrite Forall_forall in F.
  destruct (F c Hc) as (d & Hd & ->). unfold digit_char. destruct (d <? 10); lia.
Qed.
Lemma dec_readable n : readable (fmt_dec n).
Proof.
  intros c Hc. destruct (fmt_chars 10 n ltac:(lia) ltac:(lia)) as (F & _). rewrite Forall_forall in F.
  destruct (F c Hc) as (d & Hd & ->). unfold digit_char. destruct (d <? 10); lia.
Qed.
Lemma readable_app s t : readable (s ++ t) <-> readable s /\ readable t.
Proof.
  unfold readable. split.
  - intros H. split; intros c Hc; apply H; apply in_or_app; auto.
  - intros [H1 H2] c Hc. apply in_app_or in Hc as [Hc|Hc]; auto.
Qed.
Definition readableb (s : text) : bool := forallb (fun c => (32 <=? c) && negb (c =? 127)) s.
Lemma readable_b s : readableb s = true -> readable s.
Proof.
  unfold readableb. intros H c Hc. rewrite forallb_forall in H. apply H in Hc. apply andb_true_iff in Hc as [A B].
  apply N.leb_le in A. apply negb_true_iff, N.eqb_neq in B. auto.
Qed.
Lemma escape_readable pr c : readable (escape_char pr c).
Proof.
  assert (U : forall x, readable (escape_unicode x)).
  { intros x. unfold escape_unicode. apply readable_app. split; [apply readable_b; reflexivity|].
    apply readable_app. split; [apply hex_readable|apply readable_b; reflexivity]. }
  unfold escape_char.
  repeat match goal with |- context [if ?x =? ?y then _ else _] => destruct (N.eqb_spec x y) as [?|?] end; subst;
  repeat match goal with |- context [if ?x <? ?y then _ else _] => destruct (N.ltb_spec x y) as [?|?] end;
  try (apply readable_b; reflexivity); try apply U; try (intros x [<-|[]]; lia).
  destruct (pr c); [intros x [<-|[]]; lia|apply U].
Qed.
Lemma debug_str_readable pr s : readable (debug_str pr s).
Proof.
  unfold debug_str. apply readable_app. split; [apply readable_b; reflexivity|]. apply readable_app. split; [|apply readable_b; reflexivity].
  intros c Hc. apply in_flat_map in Hc as (d & _ & Hc). exact (escape_readable pr d c Hc).
Qed.

(** ** Errors: different errors print differently, on one line without control characters. *)
Theorem C113_loader_errors : forall e e', debug_lerror e = debug_lerror e' -> e = e'.
Proof.
  intros e e' H. destruct e as [[]|[]|[]| | | | |], e' as [[]|[]|[]| | | | |]; try reflexivity; vm_compute in H; discriminate H.
Qed.
Theorem C113_boot_errors : forall e e', debug_berror e = debug_berror e' -> e = e'.
Proof.
  intros e e' H. destruct e as [[]|[]|[]| | |], e' as [[]|[]|[]| | |]; try reflexivity; vm_compute in H; discriminate H.
Qed.
Theorem C113_cmdline_errors : forall pr e e', debug_cerror pr e = debug_cerror pr e' -> e = e'.
Proof.
  intros pr e e' H.
  destruct e as [ | | | | | |k| | | | ], e' as [ | | | | | |k'| | | | ]; try reflexivity;
    try (cbn [debug_cerror] in H; unfold debug_str in H; vm_compute in H; discriminate H).
  cbn [debug_cerror] in H. apply app_inv_head in H. apply debug_str_prefix in H as [-> _]. reflexivity.
Qed.
Theorem C113_errors_readable : forall pr e f g,
  readable (debug_lerror e) /\ readable (debug_berror f) /\ readable (debug_cerror pr g).
Proof.
  intros pr e f g. split; [|split].
  - destruct e as [[]|[]|[]| | | | |]; apply readable_b; vm_compute; reflexivity.
  - destruct f as [[]|[]|[]| | |]; apply readable_b; vm_compute; reflexivity.
  - destruct g as [ | | | | | |k| | | | ]; try (apply readable_b; vm_compute; reflexivity).
    cbn [debug_cerror]. rewrite !readable_app. split; [apply readable_b; vm_compute; reflexivity|].
    split; [apply debug_str_readable|apply readable_b; vm_compute; reflexivity].
Qed.

(** ** Command lines: the whole state is shown, more than [==] looks at. *)
Theorem C113_cmdlines : forall pr c d,
  (debug_cmdline pr c = debug_cmdline pr d <-> boot_args c = boot_args d /\ init_args c = init_args d /\ capacity c = capacity d) /\
  readable (debug_cmdline pr c).
Proof.
  intros pr c d. split; [split|].
  - unfold debug_cmdline. intros X. apply app_inv_head in X. apply debug_str_prefix in X as [E1 X]. apply app_inv_head in X.
    apply debug_str_prefix in X as [E2 X]. apply app_inv_head in X. apply dec_prefix in X as [E3 _]; [auto| |];
      intros q r Q; injection Q as <- _; reflexivity.
  - intros (E1 & E2 & E3). unfold debug_cmdline. now rewrite E1, E2, E3.
  - unfold debug_cmdline. rewrite !readable_app.
    repeat match goal with |- _ /\ _ => split end;
      first [apply debug_str_readable|apply dec_readable|apply readable_b; vm_compute; reflexivity].
Qed.

(** ** Structures: two values print alike exactly if they are [==], that is if all their fields agree. *)
Lemma no_digit_cons c s : dec_digit c = None -> no_digit (c :: s).
Proof. intros H d r X. injection X as <- _. exact H. Qed.
Lemma join_prefix {A} (f g : A -> text) (Q : A -> Prop) (l : list A) :
  (forall i, In i l -> forall s s', no_digit s -> no_digit s' -> f i ++ s = g i ++ s' -> Q i /\ s = s') ->
  forall s s', no_digit s -> no_digit s' ->
  join (txt ", ") (map f l) ++ s = join (txt ", ") (map g l) ++ s' -> (forall i, In i l -> Q i) /\ s = s'.
Proof.
  induction l as [|x l IH]; intros H s s' Hs Hs' X.
  - cbn in X. split; [intros i []|exact X].
  - destruct l as [|y l].
    + cbn [map join] in X. destruct (H x (or_introl eq_refl) s s' Hs Hs' X) as [Qx ->]. split; [intros i [<-|[]]; exact Qx|reflexivity].
    + change (join (txt ", ") (map f (x :: y :: l))) with (f x ++ (txt ", " ++ join (txt ", ") (map f (y :: l)))) in X.
      change (join (txt ", ") (map g (x :: y :: l))) with (g x ++ (txt ", " ++ join (txt ", ") (map g (y :: l)))) in X.
      rewrite <- !app_assoc in X.
      apply (H x (or_introl eq_refl)) in X as [Qx X]; [|apply no_digit_cons; reflexivity|apply no_digit_cons; reflexivity].
      apply app_inv_head in X.
      apply IH in X as [Qr ->]; [|intros i Hi; apply H; right; exact Hi|exact Hs|exact Hs'].
      split; [intros i [<-|Hi]; [exact Qx|exact (Qr i Hi)]|reflexivity].
Qed.

Fixpoint debug_fields (names : string -> text) (p : bool) (o : N) (fs : list (string * ty)) (bs : bytes) : list text :=
  match fs with
  | [] => []
  | (f, t') :: r =>
      (txt f ++ txt ": " ++ debug_ty names (names f) t' (slice bs (place p o t') (size t'))) ::
      debug_fields names p (place p o t' + size t') r bs
  end.
Lemma debug_struct names nm p fs bs :
  debug_ty names nm (Struct p fs) bs = nm ++ txt " { " ++ join (txt ", ") (debug_fields names p 0 fs bs) ++ txt " }".
Proof.
  cbn [debug_ty]. do 4 f_equal. generalize 0 as o. induction fs as [|[n t] fs IH]; intros o; [reflexivity|].
  cbn [debug_fields]. rewrite IH. reflexivity.
Qed.

Lemma debug_prefix names t : forall nm a b s s', no_digit s -> no_digit s' ->
  debug_ty names nm t a ++ s = debug_ty names nm t b ++ s' -> derived_eq t a b = true /\ s = s'.
Proof.
  induction t as [ | | | |n t IH|p fs IH] using ty_induct; intros nm a b s s' Hs Hs' X.
  1-4: cbn [debug_ty] in X; apply dec_prefix in X as [X ->]; [|exact Hs|exact Hs']; split; [apply N.eqb_eq; exact X|reflexivity].
  - cbn [debug_ty] in X. rewrite <- !app_assoc in X. apply app_inv_head in X.
    apply (join_prefix _ _ (fun i => derived_eq t (slice a (i * size t) (size t)) (slice b (i * size t) (size t)) = true)) in X as [Q X].
    + apply app_inv_head in X. split; [|exact X]. cbn [derived_eq]. apply forallb_forall. exact Q.
    + intros i _ u v Hu Hv Y. exact (IH nm _ _ u v Hu Hv Y).
    + apply no_digit_cons. reflexivity.
    + apply no_digit_cons. reflexivity.
  - rewrite !debug_struct in X. rewrite <- !app_assoc in X. do 2 apply app_inv_head in X.
    assert (G : forall o u v, no_digit u -> no_digit v ->
      join (txt ", ") (debug_fields names p o fs a) ++ u = join (txt ", ") (debug_fields names p o fs b) ++ v ->
      eq_fields p o fs a b = true /\ u = v).
    { clear X Hs Hs' s s'. induction fs as [|[f t] fs IHf]; intros o u v Hu Hv X.
      - cbn in X. auto.
      - inversion IH as [|? ? Ht Hr]; subst. cbn [snd] in Ht. cbn [eq_fields debug_fields] in *.
        destruct fs as [|g fs].
        + cbn [debug_fields join] in X. rewrite <- !app_assoc in X. do 2 apply app_inv_head in X.
          apply Ht in X as [Y ->]; [|exact Hu|exact Hv]. rewrite Y. auto.
        + remember (debug_fields names p (place p o t + size t) (g :: fs) a) as la eqn:Ea.
          remember (debug_fields names p (place p o t + size t) (g :: fs) b) as lb eqn:Eb.
          assert (Na : exists x l, la = x :: l) by (subst la; destruct g; cbn [debug_fields]; eauto).
          assert (Nb : exists x l, lb = x :: l) by (subst lb; destruct g; cbn [debug_fields]; eauto).
          assert (J : forall h l, (exists x l', l = x :: l') -> join (txt ", ") (h :: l) = h ++ txt ", " ++ join (txt ", ") l)
            by (intros h l (x & l' & ->); reflexivity).
          rewrite !J in X by assumption. rewrite <- !app_assoc in X. do 2 apply app_inv_head in X.
          apply Ht in X as [Y X]; [|apply no_digit_cons; reflexivity|apply no_digit_cons; reflexivity].
          rewrite Y. cbn [andb]. apply app_inv_head in X. subst la lb.
          exact (IHf Hr _ u v Hu Hv X). }
    apply G in X as [Y X]; [|apply no_digit_cons; reflexivity|apply no_digit_cons; reflexivity].
    apply app_inv_head in X. rewrite derived_eq_struct. auto.
Qed.
Lemma debug_of_eq names t : forall nm a b, derived_eq t a b = true -> debug_ty names nm t a = debug_ty names nm t b.
Proof.
  induction t as [ | | | |n t IH|p fs IH] using ty_induct; intros nm a b X.
  1-4: cbn [debug_ty derived_eq] in *; apply N.eqb_eq in X; rewrite X; reflexivity.
  - cbn [debug_ty derived_eq] in *. rewrite forallb_forall in X. f_equal. f_equal. f_equal. apply map_ext_in. intros i Hi. apply IH. exact (X i Hi).
  - rewrite !debug_struct. rewrite derived_eq_struct in X. f_equal. f_equal. f_equal. f_equal. revert X. generalize 0 as o.
    induction fs as [|[f t] fs IHf]; intros o X; [reflexivity|]. inversion IH as [|? ? Ht Hr]; subst. cbn [snd] in Ht.
    cbn [eq_fields debug_fields] in *. apply andb_true_iff in X as [X1 X2]. rewrite (Ht _ _ _ X1), (IHf Hr _ X2). reflexivity.
Qed.
Theorem C113_structures : forall names nm t a b, names_ok t = true -> lenN a = size t -> lenN b = size t ->
  (debug_ty names nm t a = debug_ty names nm t b <-> derived_eq t a b = true) /\
  (debug_ty names nm t a = debug_ty names nm t b <-> same_fields t a b).
Proof.
  intros names nm t a b Nm La Lb.
  assert (H : debug_ty names nm t a = debug_ty names nm t b <-> derived_eq t a b = true).
  { split; [|apply debug_of_eq]. intros X. apply (debug_prefix names t nm a b [] []).
    - intros c r Y; discriminate.
    - intros c r Y; discriminate.
    - now rewrite X. }
  split; [exact H|]. rewrite H. split; [apply eq_same; assumption|apply same_eq; assumption].
Qed.

(** ** Load results: printed alike exactly if [==]. *)
Lemma debug_cap_prefix c d s s' : no_digit s -> debug_pvh_cap c ++ 32 :: s = debug_pvh_cap d ++ 32 :: s' -> c = d /\ s = s'.
Proof.
  intros _ X. destruct c as [x| |], d as [y| |]; cbn [debug_pvh_cap] in X; unfold debug_address in X;
    try (rewrite <- ?app_assoc in X; exfalso; vm_compute in X; discriminate X);
    try (apply app_inv_head in X; injection X as ->; auto).
  rewrite <- !app_assoc in X. do 2 apply app_inv_head in X.
  apply dec_prefix in X as [-> X]; [|apply no_digit_cons; reflexivity|apply no_digit_cons; reflexivity].
  do 2 apply app_inv_head in X. injection X as ->. auto.
Qed.
Theorem C113_results : forall r r', debug_result r = debug_result r' <-> result_eq r r' = true.
Proof.
  intros r r'. split.
  - unfold debug_result, debug_address. intros X. rewrite <- !app_assoc in X. do 2 apply app_inv_head in X.
    apply dec_prefix in X as [E1 X]; [|apply no_digit_cons; reflexivity|apply no_digit_cons; reflexivity].
    do 2 apply app_inv_head in X.
    apply dec_prefix in X as [E2 X]; [|apply no_digit_cons; reflexivity|apply no_digit_cons; reflexivity].
    apply app_inv_head in X. unfold result_eq. rewrite E1, E2, !N.eqb_refl. cbn [andb].
    assert (K : forall c d : pvh_cap, c = d -> cap_eq c d = true) by (intros c d ->; destruct d; cbn; auto using N.eqb_refl).
    destruct (result_header r) as [h|], (result_header r') as [h'|].
    + rewrite <- !app_assoc in X. apply app_inv_head in X.
      apply debug_prefix in X as [E3 X]; [|apply no_digit_cons; reflexivity|apply no_digit_cons; reflexivity].
      rewrite E3. cbn [andb]. do 2 apply app_inv_head in X. apply debug_cap_prefix in X as [E4 _]; [apply K; exact E4|].
      apply no_digit_cons. reflexivity.
    + exfalso. vm_compute in X. discriminate X.
    + exfalso. vm_compute in X. discriminate X.
    + do 2 apply app_inv_head in X. apply debug_cap_prefix in X as [E4 _]; [apply K; exact E4|].
      apply no_digit_cons. reflexivity.
  - unfold result_eq. intros X. apply andb_true_iff in X as [X X4]. apply andb_true_iff in X as [X X3]. apply andb_true_iff in X as [X1 X2].
    apply N.eqb_eq in X1, X2. unfold debug_result. rewrite X1, X2.
    assert (pvh_boot_cap r = pvh_boot_cap r') as ->.
    { destruct (pvh_boot_cap r), (pvh_boot_cap r'); try discriminate X4; try reflexivity. cbn in X4. apply N.eqb_eq in X4. now subst. }
    destruct (result_header r) as [h|], (result_header r') as [h'|]; try discriminate X3; [|reflexivity].
    rewrite (debug_of_eq _ _ _ _ _ X3). reflexivity.
Qed.

Fixpoint names_readable (names : string -> text) (t : ty) : bool :=
  match t with
  | Arr _ t => names_readable names t
  | Struct _ fs =>
      (fix go (fs : list (string * ty)) : bool :=
        match fs with [] => true | (f, t) :: r => readableb (txt f) && readableb (names f) && names_readable names t && go r end) fs
  | _ => true
  end.
Lemma join_readable l : (forall s, In s l -> readable s) -> readable (join (txt ", ") l).
Proof.
  induction l as [|x [|y l] IH]; intros H.
  - intros c [].
  - apply H. left. reflexivity.
  - change (join (txt ", ") (x :: y :: l)) with (x ++ (txt ", " ++ join (txt ", ") (y :: l))). rewrite !readable_app.
    split; [apply H; left; reflexivity|]. split; [apply readable_b; reflexivity|]. apply IH. intros s Hs. apply H. right. exact Hs.
Qed.
Theorem C113_structures_readable : forall names t nm bs, names_readable names t = true -> readable nm -> readable (debug_ty names nm t bs).
Proof.
  intros names t. induction t as [ | | | |n t IH|p fs IH] using ty_induct; intros nm bs Hn Hm.
  1-4: cbn [debug_ty]; apply dec_readable.
  - cbn [debug_ty names_readable] in *. rewrite !readable_app. split; [apply readable_b; reflexivity|]. split; [|apply readable_b; reflexivity].
    apply join_readable. intros s Hs. apply in_map_iff in Hs as (i & <- & _). apply IH; assumption.
  - rewrite debug_struct. rewrite !readable_app. split; [exact Hm|]. split; [apply readable_b; reflexivity|]. split; [|apply readable_b; reflexivity].
    apply join_readable. cbn [names_readable] in Hn. generalize 0 as o. induction fs as [|[f t] fs IHf]; intros o s Hs; [destruct Hs|].
    inversion IH as [|? ? Ht Hr]; subst. cbn [snd] in Ht. cbn [debug_fields] in Hs. apply andb_true_iff in Hn as [Hn H4].
    apply andb_true_iff in Hn as [Hn H3]. apply andb_true_iff in Hn as [H1 H2]. destruct Hs as [<-|Hs].
    + rewrite !readable_app. split; [apply readable_b; exact H1|]. split; [apply readable_b; reflexivity|].
      apply Ht; [exact H3|apply readable_b; exact H2].
    + exact (IHf Hr H4 _ s Hs).
Qed.
(** The structures the crate hands to guests, or reads from images. *)
Definition shown : list (string * ty) :=
  [("boot_params", boot_params); ("setup_header", setup_header); ("boot_e820_entry", boot_e820_entry); ("hvm_start_info", hvm_start_info);
   ("hvm_memmap_table_entry", hvm_memmap_table_entry); ("hvm_modlist_entry", hvm_modlist_entry); ("Elf64_Ehdr", Elf64_Ehdr);
   ("Elf64_Phdr", Elf64_Phdr); ("Elf64_Nhdr", Elf64_Nhdr); ("arm64_image_header", arm64_image_header);
   ("riscv64_image_header", riscv64_image_header)].
Theorem C113_shown : forall nm t a b, In (nm, t) shown -> lenN a = size t -> lenN b = size t ->
  (debug_ty field_type_name (txt nm) t a = debug_ty field_type_name (txt nm) t b <-> same_fields t a b) /\
  readable (debug_ty field_type_name (txt nm) t a).
Proof.
  intros nm t a b Hin La Lb.
  assert (H : names_ok t = true /\ names_readable field_type_name t = true /\ readableb (txt nm) = true).
  { unfold shown in Hin.
    repeat (destruct Hin as [Hin|Hin]; [injection Hin as <- <-; vm_compute; repeat split; reflexivity|]). destruct Hin. }
  destruct H as (H1 & H2 & H3). split; [exact (proj2 (C113_structures _ _ _ _ _ H1 La Lb))|].
  apply C113_structures_readable; [exact H2|apply readable_b; exact H3].
Qed.
Theorem C113_results_readable : forall r, readable (debug_result r).
Proof.
  intros r. unfold debug_result, debug_address. rewrite !readable_app.
  assert (A : forall a, readable (debug_address a)).
  { intros a. unfold debug_address. rewrite !readable_app. split; [apply readable_b; reflexivity|]. split; [apply dec_readable|apply readable_b; reflexivity]. }
  repeat match goal with |- _ /\ _ => split end; try apply dec_readable; try (apply readable_b; vm_compute; reflexivity).
  - destruct (result_header r) as [h|]; [|apply readable_b; reflexivity]. rewrite !readable_app.
    split; [apply readable_b; reflexivity|]. split; [|apply readable_b; reflexivity].
    apply C113_structures_readable; [vm_compute; reflexivity|apply readable_b; vm_compute; reflexivity].
  - destruct (pvh_boot_cap r); cbn [debug_pvh_cap]; try (apply readable_b; vm_compute; reflexivity).
    rewrite !readable_app. split; [apply readable_b; reflexivity|]. split; [apply A|apply readable_b; reflexivity].
Qed.

(** ** Examples *)
Example C113_result_text :
  debug_result (mkResult 0x1000000 0x1000008 None (PvhEntryPresent 0x1e1fe1f)) =
  txt "KernelLoaderResult { kernel_load: GuestAddress(16777216), kernel_end: 16777224, setup_header: None, pvh_boot_cap: PvhEntryPresent(GuestAddress(31587871)) }".
Proof. vm_compute. reflexivity. Qed.
Example C113_error_text : forall pr,
  debug_lerror (LElf InvalidElfMagicNumber) = txt "Elf(InvalidElfMagicNumber)" /\
  debug_berror (BPvh MemmapTableMissing) = txt "Pvh(MemmapTableMissing)" /\
  (* a key with a quote, a backslash, a line break and the bell character *)
  debug_cerror pr (MissingVal [97; 34; 92; 10; 7]) = txt "MissingVal(" ++ [34; 97; 92; 34; 92; 92; 92; 110; 92; 117; 123; 55; 125; 34] ++ txt ")".
Proof. intros pr. repeat split; vm_compute; reflexivity. Qed.
Example C113_structure_text :
  debug_ty field_type_name (txt "boot_e820_entry") boot_e820_entry (le_enc 8 0x100000 ++ le_enc 8 4096 ++ le_enc 4 1) =
  txt "boot_e820_entry { addr: 1048576, size: 4096, type: 1 }".
Proof. vm_compute. reflexivity. Qed.
(** [==] on command lines ignores the capacity and where the text came from; [{:?}] shows both. *)
Example C113_cmdline_more : forall pr, exists c d, cmdline_eq c d = true /\ debug_cmdline pr c <> debug_cmdline pr d.
Proof.
  intros pr. exists (mkCmdline (txt "quiet") [] 10), (mkCmdline (txt "quiet") [] 11). split; [vm_compute; reflexivity|].
  intros X. apply (C113_cmdlines pr) in X as (_ & _ & X). discriminate X.
Qed.
