(** * Dtb_proofs2: every tree has a flattened form. *)
From Verif Require Import Base Base_proofs Mem SpecMem Text SpecGuest SpecDtb Dtb_proofs.
Local Open Scope list_scope.

Fixpoint tree_induct (P : tree -> Prop) (H : forall n ps ts, Forall P ts -> P (Node n ps ts)) (t : tree) : P t :=
  match t with
  | Node n ps ts => H n ps ts ((fix go l : Forall P l := match l with [] => Forall_nil P | x :: r => Forall_cons x (tree_induct P H x) (go r) end) ts)
  end.

Lemma well_named_inside n ps ts : well_named (Node n ps ts) -> ~ In x00 n /\ Forall (fun p => ~ In x00 (fst p)) ps /\ Forall well_named ts.
Proof.
  intros (H1 & H2 & H3). split; [exact H1|]. split; [exact H2|]. induction ts as [|t ts IH]; constructor; [apply H3|apply IH, H3].
Qed.
Lemma names_clean t : well_named t -> forall n, In n (names_of t) -> ~ In x00 n.
Proof.
  induction t as [n ps ts IH] using tree_induct. intros W x Hx. destruct (well_named_inside _ _ _ W) as (_ & Wp & Wt).
  cbn [names_of] in Hx. apply in_app_or in Hx. destruct Hx as [Hx|Hx].
  - apply in_map_iff in Hx. destruct Hx as (p & <- & Hp). rewrite Forall_forall in Wp. apply Wp. exact Hp.
  - apply in_flat_map in Hx. destruct Hx as (t & Ht & Hx). rewrite Forall_forall in IH, Wt. exact (IH t Ht (Wt t Ht) x Hx).
Qed.

Lemma offset_name ns n : In n ns -> (forall x, In x ns -> ~ In x00 x) -> name_at (strings ns) (offset ns n) n.
Proof.
  intros Hn Hc. split; [exact (Hc n Hn)|]. induction ns as [|x ns IH]; [contradiction|]. cbn [strings flat_map offset].
  change (flat_map (fun n0 : list byte => n0 ++ [x00]) ns) with (strings ns).
  destruct (same x n) eqn:E.
  - assert (x = n) as -> by (unfold same in E; destruct (list_eq_dec Byte.byte_eq_dec x n); congruence).
    exists [], (strings ns). split; [rewrite <- app_assoc; reflexivity|reflexivity].
  - destruct Hn as [->|Hn].
    { exfalso. unfold same in E. destruct (list_eq_dec Byte.byte_eq_dec n n); congruence. }
    destruct (IH Hn (fun y Hy => Hc y (or_intror Hy))) as (b & a & Eb & Lb).
    exists (x ++ [x00] ++ b), a. split; [rewrite Eb, <- !app_assoc; reflexivity|].
    rewrite !lenN_app. change (lenN [x00]) with 1. unfold bytes in *. lia.
Qed.
Lemma offset_lt ns n : In n ns -> offset ns n < lenN (strings ns).
Proof.
  induction ns as [|x ns IH]; [contradiction|]. intros Hn. cbn [strings flat_map offset].
  change (flat_map (fun n0 : list byte => n0 ++ [x00]) ns) with (strings ns).
  rewrite !lenN_app. change (lenN [x00]) with 1. destruct (same x n) eqn:E; [lia|].
  destruct Hn as [->|Hn]; [exfalso; unfold same in E; destruct (list_eq_dec Byte.byte_eq_dec n n); congruence|]. apply IH in Hn. unfold bytes in *. lia.
Qed.

Lemma flat_props ns ps ts l : (forall n, In n ns -> ~ In x00 n) -> lenN (strings ns) < 2 ^ 32 ->
  (forall p, In p ps -> In (fst p) ns /\ lenN (snd p) < 2 ^ 32) ->
  flat (strings ns) [] ts l -> flat (strings ns) ps ts (flat_map (write_prop ns) ps ++ l).
Proof.
  intros Hc Hs Hp H. induction ps as [|[n v] ps IH]; [exact H|]. cbn [flat_map]. unfold write_prop at 1. cbn [fst snd]. rewrite <- !app_assoc.
  destruct (Hp (n, v) (or_introl eq_refl)) as (Hn & Hv). cbn [fst snd] in Hn, Hv.
  apply flat_prop; [apply offset_name; assumption|pose proof (offset_lt ns n Hn); lia|exact Hv|apply lenN_zeros|].
  apply IH. intros p K. apply Hp. now right.
Qed.
Lemma flat_children ns ts l : Forall (fun t => forall ps' ts' l', flat (strings ns) ps' ts' l' -> flat (strings ns) ps' (t :: ts') (write_node ns t ++ l')) ts ->
  flat (strings ns) [] [] l -> flat (strings ns) [] ts (flat_map (write_node ns) ts ++ l).
Proof. intros H Hl. induction H as [|t ts Ht H IH]; [exact Hl|]. cbn [flat_map]. rewrite <- app_assoc. apply Ht. exact IH. Qed.

Lemma len_in_flat_map {A} (f : A -> bytes) x l : In x l -> lenN (f x) <= lenN (flat_map f l).
Proof.
  induction l as [|y l IH]; [contradiction|]. intros H. cbn [flat_map]. rewrite lenN_app. destruct H as [->|H]; [lia|]. apply IH in H. lia.
Qed.
Lemma write_prop_long ns p : lenN (snd p) <= lenN (write_prop ns p).
Proof. unfold write_prop. rewrite !lenN_app. unfold lenN, bytes in *. lia. Qed.

Lemma flat_written ns t : (forall n, In n ns -> ~ In x00 n) -> lenN (strings ns) < 2 ^ 32 -> (forall n, In n (names_of t) -> In n ns) ->
  well_named t -> lenN (write_node ns t) < 2 ^ 32 ->
  forall ps' ts' l', flat (strings ns) ps' ts' l' -> flat (strings ns) ps' (t :: ts') (write_node ns t ++ l').
Proof.
  intros Hc Hs. induction t as [n ps ts IH] using tree_induct. intros Hin W Hl ps' ts' l' H.
  destruct (well_named_inside _ _ _ W) as (Wn & Wp & Wt). cbn [write_node] in *.
  assert (L1 : lenN (flat_map (write_prop ns) ps) < 2 ^ 32) by (rewrite !lenN_app in Hl; unfold bytes in *; lia).
  assert (L2 : lenN (flat_map (write_node ns) ts) < 2 ^ 32) by (rewrite !lenN_app in Hl; unfold bytes in *; lia).
  assert (F : flat (strings ns) ps ts (flat_map (write_prop ns) ps ++ flat_map (write_node ns) ts ++ be32 2)).
  { apply flat_props; [exact Hc|exact Hs| |].
    - intros p Hp. split; [apply Hin; cbn [names_of]; apply in_or_app; left; apply in_map; exact Hp|].
      pose proof (len_in_flat_map (write_prop ns) p ps Hp). pose proof (write_prop_long ns p). unfold lenN, bytes in *. lia.
    - apply flat_children; [|apply flat_end]. rewrite Forall_forall in *. intros t Ht. apply IH; [exact Ht| |apply Wt; exact Ht|].
      + intros x Hx. apply Hin. cbn [names_of]. apply in_or_app. right. apply in_flat_map. eauto.
      + pose proof (len_in_flat_map (write_node ns) t ts Ht). unfold lenN, bytes in *. lia. }
  replace ((be32 1 ++ n ++ [x00] ++ zeros (fill (lenN n + 1)) ++ flat_map (write_prop ns) ps ++ flat_map (write_node ns) ts ++ be32 2) ++ l')
    with (be32 1 ++ n ++ [x00] ++ zeros (fill (lenN n + 1)) ++ (flat_map (write_prop ns) ps ++ flat_map (write_node ns) ts ++ be32 2) ++ l')
    by (rewrite <- !app_assoc; reflexivity).
  apply flat_node; [exact Wn|apply lenN_zeros|exact F|exact H].
Qed.

Lemma write_blob_ok ps ts : let t := Node [] ps ts in well_named t -> lenN (write_blob t) < 2 ^ 32 ->
  blob (write_blob t) t /\ field (write_blob t) 4 = lenN (write_blob t).
Proof.
  cbv zeta. intros W Hl. set (t := Node [] ps ts) in *. set (ns := names_of t) in *.
  remember (write_node ns t ++ be32 9) as st eqn:Est. remember (strings ns) as strs eqn:Estrs.
  set (H := be32 0xd00dfeed ++ be32 (56 + lenN st + lenN strs) ++ be32 56 ++ be32 (56 + lenN st) ++
            be32 40 ++ be32 17 ++ be32 16 ++ be32 0 ++ be32 (lenN strs) ++ be32 (lenN st) ++ zeros 16).
  assert (Ew : write_blob t = H ++ st ++ strs).
  { unfold write_blob, H. fold ns. cbv zeta. rewrite <- Est, <- Estrs, <- !app_assoc. reflexivity. }
  assert (LH : lenN H = 56).
  { unfold H. rewrite !lenN_app, lenN_zeros. unfold lenN. rewrite !length_be32. reflexivity. }
  assert (Lw : lenN (write_blob t) = 56 + lenN st + lenN strs) by (rewrite Ew, !lenN_app, LH; unfold bytes in *; lia).
  assert (F0 : field (write_blob t) 0 = 0xd00dfeed).
  { rewrite Ew. unfold H. rewrite <- app_assoc. apply field_0. reflexivity. }
  assert (F4 : field (write_blob t) 4 = lenN (write_blob t)).
  { rewrite Ew at 1. unfold H. rewrite <- !app_assoc. change 4 with (4 + 0). rewrite field_next by apply length_be32. rewrite Lw. apply field_0. lia. }
  assert (F8 : field (write_blob t) 8 = 56).
  { rewrite Ew. unfold H. rewrite <- !app_assoc. change 8 with (4 + (4 + 0)). do 2 (rewrite field_next by apply length_be32). apply field_0. reflexivity. }
  assert (F12 : field (write_blob t) 12 = 56 + lenN st).
  { rewrite Ew. unfold H. rewrite <- !app_assoc. change 12 with (4 + (4 + (4 + 0))). do 3 (rewrite field_next by apply length_be32). apply field_0. lia. }
  split; [|exact F4].
  assert (Fa : firstn (N.to_nat (field (write_blob t) 4)) (write_blob t) = write_blob t).
  { rewrite F4. apply firstn_all2. unfold lenN. rewrite Nat2N.id. constructor. }
  unfold blob. unfold t at 1.
  split; [reflexivity|]. split; [exact F0|]. split; [rewrite F4; apply N.le_refl|]. split; [rewrite F4, Lw; lia|].
  rewrite Fa, F8, F12.
  destruct (well_named_inside _ _ _ W) as (_ & Wp & Wt).
  assert (Ln : lenN st = lenN (write_node ns t) + 4) by (rewrite Est, lenN_app; unfold lenN at 2; rewrite length_be32; reflexivity).
  exists strs, (flat_map (write_prop ns) ps ++ flat_map (write_node ns) ts ++ be32 2), H.
  split; [|split; [|split]].
  - rewrite Estrs.
    assert (Hc : forall n, In n ns -> ~ In x00 n) by exact (names_clean t W).
    assert (Hs : lenN (strings ns) < 2 ^ 32) by (rewrite <- Estrs; lia).
    assert (L0 : lenN (write_node ns t) < 2 ^ 32) by lia. unfold t in L0. cbn [write_node] in L0.
    assert (L1 : lenN (flat_map (write_prop ns) ps) < 2 ^ 32) by (rewrite !lenN_app in L0; unfold bytes in *; lia).
    assert (L2 : lenN (flat_map (write_node ns) ts) < 2 ^ 32) by (rewrite !lenN_app in L0; unfold bytes in *; lia).
    apply flat_props; [exact Hc|exact Hs| |].
    + intros p Hp. split; [unfold ns, t; cbn [names_of]; apply in_or_app; left; apply in_map; exact Hp|].
      pose proof (len_in_flat_map (write_prop ns) p ps Hp). pose proof (write_prop_long ns p). unfold lenN, bytes in *. lia.
    + apply flat_children; [|apply flat_end]. rewrite Forall_forall in *. intros u Hu. apply flat_written; [exact Hc|exact Hs| |apply Wt; exact Hu|].
      * intros x Hx. unfold ns, t. cbn [names_of]. apply in_or_app. right. apply in_flat_map. eauto.
      * pose proof (len_in_flat_map (write_node ns) u ts Hu). unfold lenN, bytes in *. lia.
  - exists strs. rewrite Ew, Est. unfold t. cbn [write_node]. change (zeros (fill (lenN (@nil byte) + 1))) with [x00; x00; x00].
    change (zeros 4) with ([] ++ [x00] ++ [x00; x00; x00]). rewrite <- !app_assoc. reflexivity.
  - exact LH.
  - exists (H ++ st), []. split; [rewrite Ew, app_nil_r, <- app_assoc; reflexivity|]. rewrite lenN_app, LH. reflexivity.
Qed.
