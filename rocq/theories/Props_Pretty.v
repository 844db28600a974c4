(** * Props_Pretty: C120, what [{:#?}] prints identifies what is printed, line by line.

    [dbg!], [assert_eq!] on failure and most log configurations print [{:#?}].  Vocabulary: [readable] of Props_Debug.v; a text of
    many lines consists of [readable] lines, [legible] below. *)
From Verif Require Import Base Base_proofs Io Mem SpecMem SpecFile File_proofs Layout SpecAbi Layout_proofs Props_Bytes Text Cmdline
  SpecCmdline Text_proofs Loader Elf SpecElf BzImage SpecBz Bz_proofs Pe SpecPe BootParams Configurators SpecVmm Demo_elf Props_Elf Props_Bz
  Props_Pe Derived Props_Derived DebugText Props_Debug Pretty.
Local Open Scope list_scope.

(** Lines without control characters. *)
Definition legible (s : text) : Prop := forall c, In c s -> c = 10 \/ 32 <= c /\ c <> 127.
(** The text once more on one line, knowing nothing of what it says: line breaks and the spaces after them go; a break after
    '{' or ',' leaves a space, a comma before a closing bracket goes, and '}' gets its space back. *)
Fixpoint unindent (fresh : bool) (s : text) : text :=
  match s with
  | [] => []
  | c :: r => if c =? 10 then 10 :: unindent true r
              else if fresh && (c =? 32) then unindent true r
              else c :: unindent false r
  end.
Definition closing (c : char) : bool := (c =? 41) || (c =? 93) || (c =? 125).
Fixpoint rejoin (s : text) : text :=
  match s with
  | [] => []
  | c :: r =>
      match r with
      | d :: r' =>
          if d =? 10 then
            if c =? 44 then
              match r' with
              | e :: _ => if e =? 125 then 32 :: rejoin r' else if closing e then rejoin r' else 44 :: 32 :: rejoin r'
              | [] => []
              end
            else if c =? 123 then 123 :: 32 :: rejoin r' else c :: rejoin r'
          else c :: rejoin r
      | [] => [c]
      end
  end.

(** ** Shapes that print well: names, fields and words are readable, and do not look like layout. *)
Definition plain (w : text) : Prop := readable w /\ exists c r, w = c :: r /\ c <> 32 /\ closing c = false.
Fixpoint good (s : shape) : Prop :=
  match s with
  | Word w => plain w
  | Call n args => plain n /\ args <> [] /\ (fix go (l : list shape) : Prop := match l with [] => True | a :: r => good a /\ go r end) args
  | Rec n fields =>
      plain n /\ fields <> [] /\
      (fix go (l : list (text * shape)) : Prop := match l with [] => True | (f, a) :: r => plain f /\ good a /\ go r end) fields
  | Seq items => (fix go (l : list shape) : Prop := match l with [] => True | a :: r => good a /\ go r end) items
  end.
Section ShapeInd.
Context (P : shape -> Prop) (HW : forall w, P (Word w)) (HC : forall n args, Forall P args -> P (Call n args))
  (HR : forall n fs, Forall (fun f => P (snd f)) fs -> P (Rec n fs)) (HS : forall l, Forall P l -> P (Seq l)).
Fixpoint shape_induct (s : shape) : P s :=
  match s with
  | Word w => HW w
  | Call n args => HC n args ((fix go l : Forall P l := match l with [] => Forall_nil _ | a :: r => Forall_cons a (shape_induct a) (go r) end) args)
  | Rec n fs => HR n fs ((fix go l : Forall (fun f => P (snd f)) l :=
                            match l with [] => Forall_nil _ | a :: r => Forall_cons a (shape_induct (snd a)) (go r) end) fs)
  | Seq items => HS items ((fix go l : Forall P l := match l with [] => Forall_nil _ | a :: r => Forall_cons a (shape_induct a) (go r) end) items)
  end.
End ShapeInd.
Lemma goods l : (fix go (l : list shape) : Prop := match l with [] => True | a :: r => good a /\ go r end) l <-> Forall good l.
Proof.
  induction l as [|a l IH]; [split; [intros _; apply Forall_nil|intros _; exact I]|]. rewrite IH. split.
  - intros [A B]. apply Forall_cons; assumption.
  - intros H. inversion H; subst. split; assumption.
Qed.
Lemma good_fields l : (fix go (l : list (text * shape)) : Prop := match l with [] => True | (f, a) :: r => plain f /\ good a /\ go r end) l <->
  Forall (fun f => plain (fst f) /\ good (snd f)) l.
Proof.
  induction l as [|[f a] l IH]; [split; [intros _; apply Forall_nil|intros _; exact I]|]. rewrite IH. split.
  - intros (A & B & C). apply Forall_cons; [split; assumption|assumption].
  - intros H. inversion H as [|? ? [A B] C]; subst. split; [exact A|]. split; assumption.
Qed.

(** The text without indentation. *)
Definition flat_entry (s : text) : text := s ++ [44; 10].
Fixpoint flush (s : shape) {struct s} : text :=
  match s with
  | Word w => w
  | Call n args => n ++ txt "(" ++ [10] ++ flat_map (fun a => flat_entry (flush a)) args ++ txt ")"
  | Rec n fields => n ++ txt " {" ++ [10] ++ (fix go (fs : list (text * shape)) : text :=
         match fs with [] => [] | (f, v) :: r => flat_entry (f ++ txt ": " ++ flush v) ++ go r end) fields ++ txt "}"
  | Seq [] => txt "[]"
  | Seq items => txt "[" ++ [10] ++ flat_map (fun a => flat_entry (flush a)) items ++ txt "]"
  end.
Definition line_of (f : text * shape) : text := fst f ++ txt ": " ++ one_line (snd f).
Definition lines_of (f : text * shape) : text := fst f ++ txt ": " ++ many_lines (snd f).
Definition flush_of (f : text * shape) : text := fst f ++ txt ": " ++ flush (snd f).
Lemma one_rec n fs : one_line (Rec n fs) = n ++ txt " { " ++ join (txt ", ") (map line_of fs) ++ txt " }".
Proof. cbn [one_line]. do 4 f_equal. induction fs as [|[f v] fs IH]; [reflexivity|]. cbn [map]. rewrite <- IH. reflexivity. Qed.
Lemma many_rec n fs : many_lines (Rec n fs) = n ++ txt " {" ++ [10] ++ flat_map (fun f => entry (lines_of f)) fs ++ txt "}".
Proof. cbn [many_lines]. do 4 f_equal. induction fs as [|[f v] fs IH]; [reflexivity|]. cbn [flat_map]. rewrite <- IH. reflexivity. Qed.
Lemma flush_rec n fs : flush (Rec n fs) = n ++ txt " {" ++ [10] ++ flat_map (fun f => flat_entry (flush_of f)) fs ++ txt "}".
Proof. cbn [flush]. do 4 f_equal. induction fs as [|[f v] fs IH]; [reflexivity|]. cbn [flat_map]. rewrite <- IH. reflexivity. Qed.

Lemma unindent_readable w : readable w -> forall r, unindent false (w ++ r) = w ++ unindent false r.
Proof.
  intros H r. induction w as [|c w IH]; [reflexivity|]. cbn [app unindent andb].
  destruct (N.eqb_spec c 10) as [->|_]; [destruct (H 10 (or_introl eq_refl)); lia|]. f_equal. apply IH. intros d Hd. apply H. right. exact Hd.
Qed.
Lemma unindent_plain w : plain w -> forall b r, unindent b (w ++ r) = w ++ unindent false r.
Proof.
  intros (H & c & q & -> & Hc & _) b r. cbn [app unindent]. destruct (N.eqb_spec c 10) as [->|_]; [destruct (H 10 (or_introl eq_refl)); lia|].
  destruct (N.eqb_spec c 32) as [E|_]; [contradiction|]. rewrite andb_false_r. f_equal. apply unindent_readable. intros d Hd. apply H. right. exact Hd.
Qed.
Lemma unindent_break b r : unindent b (10 :: r) = 10 :: unindent true r.
Proof. reflexivity. Qed.
Lemma unindent_spaces r : unindent true ([32; 32; 32; 32] ++ r) = unindent true r.
Proof. reflexivity. Qed.
Lemma unindent_pad s : forall b r, unindent b (pad s ++ r) = unindent b (s ++ r).
Proof.
  induction s as [|c s IH]; intros b r; [reflexivity|]. unfold pad in *. cbn [flat_map]. rewrite <- app_assoc. destruct (N.eqb_spec c 10) as [->|Hc].
  - change (10 =? 10) with true. cbn iota. change ([10; 32; 32; 32; 32] ++ ?x) with (10 :: [32; 32; 32; 32] ++ x).
    rewrite unindent_break, unindent_spaces. cbn [app]. rewrite unindent_break. f_equal. apply IH.
  - cbn [app unindent]. rewrite !IH. reflexivity.
Qed.
Lemma unindent_entry s r : unindent true (entry s ++ r) = unindent true (s ++ [44; 10] ++ r).
Proof. unfold entry. rewrite <- !app_assoc. rewrite unindent_spaces. apply unindent_pad. Qed.
Lemma unindent_entries {A} (f g : A -> text) l : (forall a, In a l -> forall r, unindent true (f a ++ r) = g a ++ unindent false r) ->
  forall r, unindent true (flat_map (fun a => entry (f a)) l ++ r) = flat_map (fun a => flat_entry (g a)) l ++ unindent true r.
Proof.
  intros H r. induction l as [|a l IH]; [reflexivity|]. cbn [flat_map]. rewrite <- !app_assoc. rewrite unindent_entry.
  rewrite H by (left; reflexivity). unfold flat_entry. rewrite <- !app_assoc. f_equal.
    change (unindent false ([44; 10] ++ ?x)) with (44 :: 10 :: unindent true x). cbn [app]. do 2 f_equal.
  apply IH. intros b Hb. apply H. right. exact Hb.
Qed.
Lemma unindent_many s : good s -> forall b r, unindent b (many_lines s ++ r) = flush s ++ unindent false r.
Proof.
  induction s as [w|n args IH|n fs IH|l IH] using shape_induct; intros G b r.
  - apply unindent_plain. exact G.
  - cbn [many_lines flush good] in *. destruct G as (Hn & _ & G). apply goods in G. rewrite <- !app_assoc. rewrite unindent_plain by exact Hn.
    f_equal.
    change (unindent false (txt "(" ++ [10] ++ ?x)) with (40 :: 10 :: unindent true x). change (txt "(") with [40]. cbn [app]. do 2 f_equal.
    rewrite (unindent_entries many_lines flush).
    + f_equal.
    + intros a Ha q. rewrite Forall_forall in IH, G. apply IH; auto.
  - rewrite many_rec, flush_rec. cbn [good] in G. destruct G as (Hn & _ & G). apply good_fields in G. rewrite <- !app_assoc.
    rewrite unindent_plain by exact Hn. f_equal.
    change (unindent false (txt " {" ++ [10] ++ ?x)) with (32 :: 123 :: 10 :: unindent true x). change (txt " {") with [32; 123]. cbn [app].
    do 3 f_equal. rewrite (unindent_entries lines_of flush_of).
    + f_equal.
    + intros [f a] Ha q. rewrite Forall_forall in IH, G. destruct (G _ Ha) as [Gf Ga]. cbn [fst snd] in *. unfold lines_of, flush_of. cbn [fst snd].
      rewrite <- !app_assoc. rewrite unindent_plain by exact Gf. f_equal.
      rewrite unindent_readable by (apply readable_b; reflexivity). f_equal. apply (IH _ Ha). exact Ga.
  - cbn [good] in G. apply goods in G. destruct l as [|a0 l]; [destruct b; reflexivity|]. remember (a0 :: l) as items eqn:Ei.
    assert (M : many_lines (Seq items) = txt "[" ++ [10] ++ flat_map (fun a => entry (many_lines a)) items ++ txt "]") by (subst; reflexivity).
    assert (F : flush (Seq items) = txt "[" ++ [10] ++ flat_map (fun a => flat_entry (flush a)) items ++ txt "]") by (subst; reflexivity).
    rewrite M, F. rewrite <- !app_assoc. 
    assert (K : forall x, unindent b (txt "[" ++ [10] ++ x) = 91 :: 10 :: unindent true x) by (intros x; destruct b; reflexivity).
    rewrite K. change (txt "[") with [91]. cbn [app]. do 2 f_equal. rewrite (unindent_entries many_lines flush).
    + f_equal.
    + intros a Ha q. rewrite Forall_forall in IH, G. apply IH; auto.
Qed.

Definition no_break (s : text) : Prop := forall r, s <> 10 :: r.
Lemma rejoin_cons c r : no_break r -> rejoin (c :: r) = c :: rejoin r.
Proof. intros H. destruct r as [|d r]; [reflexivity|]. cbn [rejoin]. destruct (N.eqb_spec d 10) as [->|_]; [elim (H r); reflexivity|reflexivity]. Qed.
Lemma rejoin_readable w : readable w -> forall r, no_break r -> rejoin (w ++ r) = w ++ rejoin r.
Proof.
  intros H r Hr. induction w as [|c w IH]; [reflexivity|]. cbn [app]. rewrite rejoin_cons.
  - f_equal. apply IH. intros d Hd. apply H. right. exact Hd.
  - destruct w as [|d w]; [exact Hr|]. intros q E. cbn [app] in E. injection E as -> _. destruct (H 10 (or_intror (or_introl eq_refl))). lia.
Qed.
(** Beginnings of entries. *)
Definition starts (s : text) : Prop := exists c r, s = c :: r /\ c <> 10 /\ c <> 32 /\ closing c = false.
Lemma plain_starts w q : plain w -> starts (w ++ q).
Proof.
  intros (H & c & r & -> & Hc & Hd). exists c, (r ++ q). split; [reflexivity|]. split; [|split; assumption].
  intros ->. destruct (H 10 (or_introl eq_refl)). lia.
Qed.
Lemma flush_starts s : good s -> forall q, starts (flush s ++ q).
Proof.
  destruct s as [w|n args|n fs|l]; intros G q.
  - apply plain_starts. exact G.
  - cbn [flush good] in *. rewrite <- app_assoc. apply plain_starts. exact (proj1 G).
  - rewrite flush_rec. rewrite <- app_assoc. apply plain_starts. exact (proj1 G).
  - assert (K : exists x, flush (Seq l) = 91 :: x) by (destruct l; eexists; reflexivity). destruct K as (x & ->).
    exists 91, (x ++ q). split; [reflexivity|]. split; [discriminate|]. split; [discriminate|reflexivity].
Qed.
Lemma rejoin_comma e r : rejoin (44 :: 10 :: e :: r) =
  if e =? 125 then 32 :: rejoin (e :: r) else if closing e then rejoin (e :: r) else 44 :: 32 :: rejoin (e :: r).
Proof. reflexivity. Qed.
Lemma rejoin_entries {A} (u o : A -> text) l e : closing e = true -> l <> [] ->
  (forall a, In a l -> (forall q, starts (u a ++ q)) /\ forall r, no_break r -> rejoin (u a ++ r) = o a ++ rejoin r) ->
  forall r, rejoin (flat_map (fun a => flat_entry (u a)) l ++ e :: r) =
    join (txt ", ") (map o l) ++ (if e =? 125 then [32] else []) ++ rejoin (e :: r).
Proof.
  intros He Hl H r. induction l as [|a l IH]; [elim Hl; reflexivity|]. cbn [flat_map map]. unfold flat_entry at 1. rewrite <- !app_assoc.
  rewrite (proj2 (H a (or_introl eq_refl))) by (cbn [app]; intros q E; discriminate E). destruct l as [|b l].
  - cbn [flat_map map join app]. f_equal. rewrite rejoin_comma, He. destruct (e =? 125); reflexivity.
  - change (join (txt ", ") (o a :: map o (b :: l))) with (o a ++ txt ", " ++ join (txt ", ") (map o (b :: l))). rewrite <- !app_assoc. f_equal.
    rewrite <- IH; [|discriminate|intros x Hx; apply H; right; exact Hx].
    destruct (H b (or_intror (or_introl eq_refl))) as [Sb _].
    assert (K : exists c q, flat_map (fun x => flat_entry (u x)) (b :: l) ++ e :: r = c :: q /\ closing c = false).
    { cbn [flat_map]. unfold flat_entry at 1. rewrite <- !app_assoc. edestruct Sb as (c & q & E & _ & _ & Hc). rewrite E. eauto. }
    destruct K as (c & q & E & Hc). rewrite E. cbn [app]. change (txt ", ") with [44; 32]. cbn [app]. rewrite rejoin_comma, Hc.
    destruct (N.eqb_spec c 125) as [Ec|_]; [|reflexivity]. rewrite Ec in Hc. discriminate Hc.
Qed.
Lemma rejoin_flush s : good s -> forall r, no_break r -> rejoin (flush s ++ r) = one_line s ++ rejoin r.
Proof.
  induction s as [w|n args IH|n fs IH|l IH] using shape_induct; intros G r Hr.
  - apply rejoin_readable; [exact (proj1 G)|exact Hr].
  - cbn [flush one_line good] in *. destruct G as (Hn & Ha & G). apply goods in G. rewrite <- !app_assoc.
    rewrite (rejoin_readable n (proj1 Hn)) by (intros q E; discriminate E). f_equal. change (txt "(") with [40]. change (txt ")") with [41].
    cbn [app]. cbn [rejoin]. change (10 =? 10) with true. change (40 =? 44) with false. change (40 =? 123) with false. cbn iota. f_equal.
    rewrite (rejoin_entries flush one_line args 41 eq_refl Ha).
    + f_equal. cbn [app]. change (41 =? 125) with false. cbn iota. cbn [app]. apply rejoin_cons. exact Hr.
    + intros a Hin. rewrite Forall_forall in IH, G. split; [apply flush_starts; auto|]. intros q Hq. apply IH; auto.
  - rewrite flush_rec, one_rec. cbn [good] in G. destruct G as (Hn & Ha & G). apply good_fields in G. rewrite <- !app_assoc.
    rewrite (rejoin_readable n (proj1 Hn)) by (intros q E; discriminate E). f_equal.
    change (txt " {") with [32; 123]. change (txt " { ") with [32; 123; 32]. change (txt "}") with [125]. change (txt " }") with [32; 125]. cbn [app].
    rewrite rejoin_cons by (intros q E; discriminate E). f_equal.
    cbn [rejoin]. change (10 =? 10) with true. change (123 =? 44) with false. change (123 =? 123) with true. cbn iota. do 2 f_equal.
    rewrite (rejoin_entries flush_of line_of fs 125 eq_refl Ha).
    + f_equal. change (125 =? 125) with true. cbn iota. cbn [app]. f_equal. apply rejoin_cons. exact Hr.
    + intros [f a] Hin. rewrite Forall_forall in IH, G. destruct (G _ Hin) as [Gf Ga]. cbn [fst snd] in *. unfold flush_of, line_of. cbn [fst snd]. split.
      * intros q. rewrite <- app_assoc. apply plain_starts. exact Gf.
      * intros q Hq. rewrite <- !app_assoc. rewrite (rejoin_readable f (proj1 Gf)) by (intros q' E; discriminate E). f_equal.
        rewrite (rejoin_readable (txt ": ")); [|apply readable_b; reflexivity|].
        -- f_equal. apply (IH _ Hin); assumption.
        -- destruct (flush_starts a Ga q) as (c & q' & E & Hc & _). rewrite E. intros q'' E'. injection E' as -> _. contradiction.
  - cbn [good] in G. apply goods in G. destruct l as [|a0 l].
    { change (flush (Seq [])) with [91; 93]. change (one_line (Seq [])) with [91; 93]. apply (rejoin_readable [91; 93]); [apply readable_b; reflexivity|exact Hr]. }
    assert (Ha : a0 :: l <> []) by discriminate. revert IH G Ha. generalize (a0 :: l) as items. intros items IH G Ha.
    assert (F : flush (Seq items) = txt "[" ++ [10] ++ flat_map (fun a => flat_entry (flush a)) items ++ txt "]") by (destruct items; [contradiction|reflexivity]).
    rewrite F. cbn [one_line]. rewrite <- !app_assoc. change (txt "[") with [91]. change (txt "]") with [93].
    cbn [app]. cbn [rejoin]. change (10 =? 10) with true. change (91 =? 44) with false. change (91 =? 123) with false. cbn iota. f_equal.
    rewrite (rejoin_entries flush one_line items 93 eq_refl Ha).
    + f_equal. change (93 =? 125) with false. cbn iota. cbn [app]. apply rejoin_cons. exact Hr.
    + intros a Hin. rewrite Forall_forall in IH, G. split; [apply flush_starts; auto|]. intros q Hq. apply IH; auto.
Qed.

(** The many-line form says what the one-line form says. *)
Theorem C120_same_words : forall s, good s -> rejoin (unindent false (many_lines s)) = one_line s.
Proof.
  intros s G. rewrite <- (app_nil_r (many_lines s)). rewrite (unindent_many s G). cbn [unindent]. rewrite (rejoin_flush s G) by (intros r E; discriminate E).
  apply app_nil_r.
Qed.
Lemma legible_app s t : legible (s ++ t) <-> legible s /\ legible t.
Proof.
  unfold legible. split.
  - intros H. split; intros c Hc; apply H; apply in_or_app; auto.
  - intros [H1 H2] c Hc. apply in_app_or in Hc as [Hc|Hc]; auto.
Qed.
Lemma legible_readable s : readable s -> legible s.
Proof. intros H c Hc. right. apply H. exact Hc. Qed.
Lemma legible_entry s : legible s -> legible (entry s).
Proof.
  intros H. unfold entry. rewrite !legible_app. split; [apply legible_readable, readable_b; reflexivity|]. split.
  - intros c Hc. unfold pad in Hc. apply in_flat_map in Hc as (d & Hd & Hc). destruct (d =? 10).
    + cbn in Hc. destruct Hc as [<-|Hc]; [left; reflexivity|right]. decompose [or] Hc; subst; try contradiction; lia.
    + destruct Hc as [<-|[]]. auto.
  - intros c [<-|[<-|[]]]; [right; lia|left; reflexivity].
Qed.
Lemma legible_entries {A} (f : A -> text) l : (forall a, In a l -> legible (f a)) -> legible (flat_map (fun a => entry (f a)) l).
Proof. intros H c Hc. apply in_flat_map in Hc as (a & Ha & Hc). exact (legible_entry _ (H a Ha) c Hc). Qed.
Theorem C120_legible : forall s, good s -> legible (many_lines s).
Proof.
  assert (B : legible [10]) by (intros c [<-|[]]; left; reflexivity).
  intros s. induction s as [w|n args IH|n fs IH|l IH] using shape_induct; intros G.
  - apply legible_readable. exact (proj1 G).
  - cbn [many_lines good] in *. destruct G as (Hn & _ & G). apply goods in G. rewrite !legible_app. split; [apply legible_readable; exact (proj1 Hn)|].
    split; [apply legible_readable, readable_b; reflexivity|]. split; [exact B|]. split; [|apply legible_readable, readable_b; reflexivity].
    apply legible_entries. intros a Ha. rewrite Forall_forall in IH, G. auto.
  - rewrite many_rec. cbn [good] in G. destruct G as (Hn & _ & G). apply good_fields in G. rewrite !legible_app. split; [apply legible_readable; exact (proj1 Hn)|].
    split; [apply legible_readable, readable_b; reflexivity|]. split; [exact B|]. split; [|apply legible_readable, readable_b; reflexivity].
    apply legible_entries. intros [f a] Ha. rewrite Forall_forall in IH, G. destruct (G _ Ha) as [Gf Ga]. cbn [fst snd] in *. unfold lines_of. cbn [fst snd].
    rewrite !legible_app. split; [apply legible_readable; exact (proj1 Gf)|]. split; [apply legible_readable, readable_b; reflexivity|]. exact (IH _ Ha Ga).
  - cbn [good] in G. apply goods in G. destruct l as [|a0 l]; [apply legible_readable, readable_b; reflexivity|]. revert IH G.
    change (many_lines (Seq (a0 :: l))) with (txt "[" ++ [10] ++ flat_map (fun a => entry (many_lines a)) (a0 :: l) ++ txt "]").
    generalize (a0 :: l) as items. intros items IH G. rewrite !legible_app.
    split; [apply legible_readable, readable_b; reflexivity|]. split; [exact B|]. split; [|apply legible_readable, readable_b; reflexivity].
    apply legible_entries. intros a Ha. rewrite Forall_forall in IH, G. auto.
Qed.

(** ** What is printed *)
Definition wordb (w : text) : bool :=
  readableb w && match w with c :: _ => negb (c =? 32) && negb (closing c) | [] => false end.
Lemma wordb_plain w : wordb w = true -> plain w.
Proof.
  unfold wordb. intros H. apply andb_true_iff in H as [H1 H2]. split; [apply readable_b; exact H1|]. destruct w as [|c r]; [discriminate H2|].
  apply andb_true_iff in H2 as [H2 H3]. exists c, r. split; [reflexivity|]. split; [|apply negb_true_iff; exact H3].
  apply negb_true_iff in H2. apply N.eqb_neq. exact H2.
Qed.
Lemma dec_plain n : plain (fmt_dec n).
Proof.
  split; [apply dec_readable|]. destruct (fmt_chars 10 n ltac:(lia) ltac:(lia)) as (F & Hne). unfold fmt_dec. 
  destruct (digits 10 (S (N.size_nat n)) n []) as [|c r] eqn:E; [contradiction|]. exists c, r. split; [first [exact E|reflexivity]|].
  inversion F as [|? ? (d & Hd & Hc) _]; subst. unfold digit_char, closing. destruct (N.ltb_spec d 10); [|lia].
  split; [lia|]. destruct (N.eqb_spec (48 + d) 41), (N.eqb_spec (48 + d) 93), (N.eqb_spec (48 + d) 125); try lia; reflexivity.
Qed.
Lemma str_plain pr s : plain (debug_str pr s).
Proof. split; [apply debug_str_readable|]. eexists 34, _. split; [reflexivity|]. split; [discriminate|reflexivity]. Qed.

Fixpoint shape_fields (names : string -> text) (p : bool) (o : N) (fs : list (string * ty)) (bs : bytes) : list (text * shape) :=
  match fs with
  | [] => []
  | (f, t') :: r =>
      (txt f, shape_ty names (names f) t' (slice bs (place p o t') (size t'))) :: shape_fields names p (place p o t' + size t') r bs
  end.
Lemma shape_struct names nm p fs bs : shape_ty names nm (Struct p fs) bs = Rec nm (shape_fields names p 0 fs bs).
Proof.
  cbn [shape_ty]. f_equal. generalize 0 as o. induction fs as [|[f t] fs IH]; intros o; [reflexivity|]. cbn [shape_fields]. rewrite IH. reflexivity.
Qed.
Lemma one_ty names t : forall nm bs, one_line (shape_ty names nm t bs) = debug_ty names nm t bs.
Proof.
  induction t as [ | | | |n t IH|p fs IH] using ty_induct; intros nm bs; try reflexivity.
  - cbn [shape_ty debug_ty one_line]. rewrite map_map. do 3 f_equal. apply map_ext. intros i. apply IH.
  - rewrite shape_struct, one_rec, debug_struct. do 4 f_equal. generalize 0 as o. induction fs as [|[f t] fs IHf]; intros o; [reflexivity|].
    inversion IH as [|? ? Ht Hr]; subst. cbn [snd] in Ht. cbn [shape_fields debug_fields map]. rewrite (IHf Hr). unfold line_of. cbn [fst snd].
    now rewrite Ht.
Qed.
(** Every name of a structure is a word, and no structure is empty. *)
Fixpoint words_ok (names : string -> text) (t : ty) : bool :=
  match t with
  | Arr _ t => words_ok names t
  | Struct _ fs =>
      match fs with [] => false | _ => true end &&
      (fix go (fs : list (string * ty)) : bool :=
        match fs with [] => true | (f, t) :: r => wordb (txt f) && match t with U8 | U16 | U32 | U64 => true | _ => wordb (names f) end && words_ok names t && go r end) fs
  | _ => true
  end.
Lemma shape_ty_good names t : forall nm bs, words_ok names t = true -> match t with U8 | U16 | U32 | U64 => True | _ => plain nm end -> good (shape_ty names nm t bs).
Proof.
  induction t as [ | | | |n t IH|p fs IH] using ty_induct; intros nm bs Hw Hn.
  1-4: apply dec_plain.
  - cbn [shape_ty good words_ok] in *. apply goods. apply Forall_forall. intros s Hs. apply in_map_iff in Hs as (i & <- & _). apply IH; [exact Hw|].
    destruct t; auto.
  - rewrite shape_struct. cbn [good]. split; [exact Hn|]. cbn [words_ok] in Hw. apply andb_true_iff in Hw as [He Hw]. split.
    + destruct fs as [|[f t] fs]; [discriminate He|]. cbn [shape_fields]. discriminate.
    + apply good_fields. clear He Hn. revert Hw. generalize 0 as o. induction fs as [|[f t] fs IHf]; intros o Hw; [apply Forall_nil|].
      inversion IH as [|? ? Ht Hr]; subst. cbn [snd] in Ht. cbn [shape_fields]. apply andb_true_iff in Hw as [Hw H4].
      apply andb_true_iff in Hw as [Hw H3]. apply andb_true_iff in Hw as [H1 H2]. apply Forall_cons; [|apply IHf; assumption].
      cbn [fst snd]. split; [apply wordb_plain; exact H1|]. apply Ht; [exact H3|]. destruct t; auto using wordb_plain.
Qed.
Lemma shape_of_eq names t : forall nm a b, derived_eq t a b = true -> shape_ty names nm t a = shape_ty names nm t b.
Proof.
  induction t as [ | | | |n t IH|p fs IH] using ty_induct; intros nm a b X.
  1-4: cbn [shape_ty derived_eq] in *; apply N.eqb_eq in X; rewrite X; reflexivity.
  - cbn [shape_ty derived_eq] in *. rewrite forallb_forall in X. f_equal. apply map_ext_in. intros i Hi. apply IH. exact (X i Hi).
  - rewrite !shape_struct. rewrite derived_eq_struct in X. f_equal. revert X. generalize 0 as o.
    induction fs as [|[f t] fs IHf]; intros o X; [reflexivity|]. inversion IH as [|? ? Ht Hr]; subst. cbn [snd] in Ht.
    cbn [eq_fields shape_fields] in *. apply andb_true_iff in X as [X1 X2]. rewrite (Ht _ _ _ X1), (IHf Hr _ X2). reflexivity.
Qed.

(** The two forms come from the same shape: [{:?}] is what DebugText.v says. *)
Theorem C120_one_line :
  (forall pr e, one_line (shape_cerror pr e) = debug_cerror pr e) /\ (forall pr c, one_line (shape_cmdline pr c) = debug_cmdline pr c) /\
  (forall e, one_line (shape_lerror e) = debug_lerror e) /\ (forall e, one_line (shape_berror e) = debug_berror e) /\
  (forall r, one_line (shape_result r) = debug_result r) /\
  (forall names nm t bs, one_line (shape_ty names nm t bs) = debug_ty names nm t bs).
Proof.
  split; [intros pr []; reflexivity|]. split.
  { intros pr c. unfold shape_cmdline. rewrite one_rec. unfold debug_cmdline, line_of. cbn [map join fst snd one_line].
    rewrite <- !app_assoc. reflexivity. }
  split; [intros [[]|[]|[]| | | | |]; reflexivity|]. split; [intros [[]|[]|[]| | |]; reflexivity|]. split.
  - intros r. unfold shape_result. rewrite one_rec. unfold debug_result, line_of, shape_address, debug_address. cbn [map join fst snd].
    assert (H : one_line match result_header r with Some h => Call (txt "Some") [shape_ty field_type_name (txt "setup_header") setup_header h] | None => Word (txt "None") end =
      match result_header r with Some h => txt "Some(" ++ debug_ty field_type_name (txt "setup_header") setup_header h ++ txt ")" | None => txt "None" end).
    { destruct (result_header r) as [h|]; [|reflexivity]. cbn [one_line map join]. rewrite one_ty. reflexivity. }
    rewrite H. assert (K : one_line match pvh_boot_cap r with PvhEntryPresent a => Call (txt "PvhEntryPresent") [Call (txt "GuestAddress") [Word (fmt_dec a)]] | c => Word (debug_pvh_cap c) end =
      debug_pvh_cap (pvh_boot_cap r)) by (destruct (pvh_boot_cap r); reflexivity).
    assert (K' : forall c, one_line match c with PvhEntryPresent a => Call (txt "PvhEntryPresent") [Call (txt "GuestAddress") [Word (fmt_dec a)]] | c => Word (debug_pvh_cap c) end = debug_pvh_cap c)
      by (intros []; reflexivity).
    clear K H. cbn [one_line map join]. rewrite <- !app_assoc. destruct (pvh_boot_cap r); reflexivity.
  - intros. apply one_ty.
Qed.
Lemma good_call n w : plain n -> plain w -> good (Call n [Word w]).
Proof. intros Hn Hw. cbn [good]. split; [exact Hn|]. split; [discriminate|]. split; [exact Hw|exact I]. Qed.
Lemma good_lerror e : good (shape_lerror e).
Proof.
  destruct e as [[]|[]|[]| | | | |]; cbn [shape_lerror];
    first [apply good_call; apply wordb_plain; vm_compute; reflexivity|apply wordb_plain; vm_compute; reflexivity].
Qed.
Lemma good_berror e : good (shape_berror e).
Proof.
  destruct e as [[]|[]|[]| | |]; cbn [shape_berror];
    first [apply good_call; apply wordb_plain; vm_compute; reflexivity|apply wordb_plain; vm_compute; reflexivity].
Qed.
Lemma good_cerror pr e : good (shape_cerror pr e).
Proof.
  destruct e as [ | | | | | |k| | | | ]; cbn [shape_cerror];
    first [apply wordb_plain; vm_compute; reflexivity|apply good_call; [apply wordb_plain; vm_compute; reflexivity|apply str_plain]].
Qed.
Lemma good_cmdline pr c : good (shape_cmdline pr c).
Proof.
  cbn [shape_cmdline good]. split; [apply wordb_plain; vm_compute; reflexivity|]. split; [discriminate|].
  split; [apply wordb_plain; vm_compute; reflexivity|]. split; [apply str_plain|].
  split; [apply wordb_plain; vm_compute; reflexivity|]. split; [apply str_plain|].
  split; [apply wordb_plain; vm_compute; reflexivity|]. split; [apply dec_plain|exact I].
Qed.
Lemma good_result r : good (shape_result r).
Proof.
  assert (A : forall a, good (shape_address a)) by (intros a; apply good_call; [apply wordb_plain; vm_compute; reflexivity|apply dec_plain]).
  cbn [shape_result good]. split; [apply wordb_plain; vm_compute; reflexivity|]. split; [discriminate|].
  split; [apply wordb_plain; vm_compute; reflexivity|]. split; [apply A|].
  split; [apply wordb_plain; vm_compute; reflexivity|]. split; [apply dec_plain|].
  split; [apply wordb_plain; vm_compute; reflexivity|]. split.
  { destruct (result_header r) as [h|]; [|apply wordb_plain; vm_compute; reflexivity]. cbn [good]. split; [apply wordb_plain; vm_compute; reflexivity|].
    split; [discriminate|]. split; [|exact I]. apply shape_ty_good; [vm_compute; reflexivity|]. apply wordb_plain. vm_compute. reflexivity. }
  split; [apply wordb_plain; vm_compute; reflexivity|]. split; [|exact I].
  destruct (pvh_boot_cap r); cbn [good]; try (apply wordb_plain; vm_compute; reflexivity).
  split; [apply wordb_plain; vm_compute; reflexivity|]. split; [discriminate|]. split; [apply A|exact I].
Qed.
Lemma same_shape s t : good s -> good t -> many_lines s = many_lines t -> one_line s = one_line t.
Proof. intros Hs Ht E. rewrite <- (C120_same_words s Hs), <- (C120_same_words t Ht), E. reflexivity. Qed.

(** [{:#?}] of two errors, command lines, results or structures is the same exactly when they are; and it is legible. *)
Theorem C120_errors : forall pr,
  (forall e f, many_lines (shape_lerror e) = many_lines (shape_lerror f) -> e = f) /\
  (forall e f, many_lines (shape_berror e) = many_lines (shape_berror f) -> e = f) /\
  (forall e f, many_lines (shape_cerror pr e) = many_lines (shape_cerror pr f) -> e = f) /\
  (forall e f g, legible (many_lines (shape_lerror e)) /\ legible (many_lines (shape_berror f)) /\ legible (many_lines (shape_cerror pr g))).
Proof.
  intros pr. destruct C120_one_line as (L1 & _ & L3 & L4 & _).
  split; [intros e f X; apply same_shape in X; [|apply good_lerror|apply good_lerror]; rewrite !L3 in X; exact (C113_loader_errors _ _ X)|].
  split; [intros e f X; apply same_shape in X; [|apply good_berror|apply good_berror]; rewrite !L4 in X; exact (C113_boot_errors _ _ X)|].
  split; [intros e f X; apply same_shape in X; [|apply good_cerror|apply good_cerror]; rewrite !L1 in X; exact (C113_cmdline_errors _ _ _ X)|].
  intros e f g. split; [apply C120_legible, good_lerror|]. split; [apply C120_legible, good_berror|apply C120_legible, good_cerror].
Qed.
Theorem C120_cmdlines : forall pr c d,
  (many_lines (shape_cmdline pr c) = many_lines (shape_cmdline pr d) <->
     boot_args c = boot_args d /\ init_args c = init_args d /\ capacity c = capacity d) /\
  legible (many_lines (shape_cmdline pr c)).
Proof.
  intros pr c d. split; [split|apply C120_legible, good_cmdline].
  - intros X. apply same_shape in X; [|apply good_cmdline|apply good_cmdline]. rewrite !(proj1 (proj2 C120_one_line)) in X.
    exact (proj1 (proj1 (C113_cmdlines pr c d)) X).
  - intros (E1 & E2 & E3). unfold shape_cmdline. now rewrite E1, E2, E3.
Qed.
Theorem C120_results : forall r r',
  (many_lines (shape_result r) = many_lines (shape_result r') <-> result_eq r r' = true) /\ legible (many_lines (shape_result r)).
Proof.
  intros r r'. split; [split|apply C120_legible, good_result].
  - intros X. apply same_shape in X; [|apply good_result|apply good_result]. rewrite !(proj1 (proj2 (proj2 (proj2 (proj2 C120_one_line))))) in X.
    exact (proj1 (C113_results r r') X).
  - intros X. assert (S0 : shape_result r = shape_result r'); [|now rewrite S0].
    unfold result_eq in X. apply andb_true_iff in X as [X X4]. apply andb_true_iff in X as [X X3]. apply andb_true_iff in X as [X1 X2].
    apply N.eqb_eq in X1. apply N.eqb_eq in X2. unfold shape_result. rewrite X1, X2. do 2 f_equal. f_equal. f_equal. f_equal.
    + destruct (result_header r) as [a|], (result_header r') as [b|]; try discriminate X3; [|reflexivity].
      now rewrite (shape_of_eq field_type_name setup_header (txt "setup_header") a b X3).
    + f_equal. f_equal. destruct (pvh_boot_cap r) as [a| |], (pvh_boot_cap r') as [b| |]; try discriminate X4; try reflexivity.
      cbn in X4. apply N.eqb_eq in X4. now rewrite X4.
Qed.
Theorem C120_structures : forall nm t a b, In (nm, t) shown -> lenN a = size t -> lenN b = size t ->
  (many_lines (shape_ty field_type_name (txt nm) t a) = many_lines (shape_ty field_type_name (txt nm) t b) <-> same_fields t a b) /\
  legible (many_lines (shape_ty field_type_name (txt nm) t a)).
Proof.
  intros nm t a b Hin La Lb.
  assert (H : words_ok field_type_name t = true /\ wordb (txt nm) = true /\ names_ok t = true).
  { unfold shown in Hin.
    repeat (destruct Hin as [Hin|Hin]; [injection Hin as <- <-; vm_compute; repeat split; reflexivity|]). destruct Hin. }
  destruct H as (H1 & H2 & H3).
  assert (G : forall x, good (shape_ty field_type_name (txt nm) t x)).
  { intros x. apply shape_ty_good; [exact H1|]. destruct t; auto using wordb_plain. }
  split; [|apply C120_legible, G]. destruct (C113_structures field_type_name (txt nm) t a b H3 La Lb) as [D1 D2]. split.
  - intros X. apply same_shape in X; [|apply G|apply G]. rewrite !one_ty in X. apply D2. exact X.
  - intros X. f_equal. apply shape_of_eq. apply D1, D2. exact X.
Qed.

(** ** Examples *)
Definition nl : text := [10].
Example C120_result_text :
  many_lines (shape_result (mkResult 0x1000000 0x1000008 None (PvhEntryPresent 0x1e1fe1f))) =
  txt "KernelLoaderResult {" ++ nl ++
  txt "    kernel_load: GuestAddress(" ++ nl ++
  txt "        16777216," ++ nl ++
  txt "    )," ++ nl ++
  txt "    kernel_end: 16777224," ++ nl ++
  txt "    setup_header: None," ++ nl ++
  txt "    pvh_boot_cap: PvhEntryPresent(" ++ nl ++
  txt "        GuestAddress(" ++ nl ++
  txt "            31587871," ++ nl ++
  txt "        )," ++ nl ++
  txt "    )," ++ nl ++
  txt "}".
Proof. vm_compute. reflexivity. Qed.
Example C120_error_text :
  many_lines (shape_lerror (LElf InvalidElfMagicNumber)) = txt "Elf(" ++ nl ++ txt "    InvalidElfMagicNumber," ++ nl ++ txt ")".
Proof. vm_compute. reflexivity. Qed.
(** Two structures that differ in one element of an array. *)
Example C120_structures_differ :
  many_lines (shape_ty field_type_name (txt "boot_e820_entry") boot_e820_entry (le_enc 8 0x100000 ++ le_enc 8 4096 ++ le_enc 4 1)) <>
  many_lines (shape_ty field_type_name (txt "boot_e820_entry") boot_e820_entry (le_enc 8 0x100000 ++ le_enc 8 4096 ++ le_enc 4 2)).
Proof. vm_compute. discriminate. Qed.
