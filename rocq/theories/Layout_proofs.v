(** * Layout_proofs: fields of a struct lie inside it and do not overlap; reading and writing fields. *)
From Verif Require Import Base Base_proofs Layout SpecAbi.

Section TyInd.
Context (P : ty -> Prop) (H8 : P U8) (H16 : P U16) (H32 : P U32) (H64 : P U64)
  (HA : forall n t, P t -> P (Arr n t))
  (HS : forall p fs, Forall (fun f => P (snd f)) fs -> P (Struct p fs)).
Fixpoint ty_induct (t : ty) : P t :=
  match t with
  | U8 => H8 | U16 => H16 | U32 => H32 | U64 => H64
  | Arr n t => HA n t (ty_induct t)
  | Struct p fs => HS p fs ((fix go (fs : list (string * ty)) : Forall (fun f => P (snd f)) fs :=
      match fs with
      | [] => Forall_nil _
      | f :: r => Forall_cons f (ty_induct (snd f)) (go r)
      end) fs)
  end.
End TyInd.

Fixpoint aligns (fs : list (string * ty)) : N :=
  match fs with [] => 1 | (_, t) :: r => N.max (align t) (aligns r) end.
Lemma align_struct fs : align (Struct false fs) = aligns fs.
Proof. cbn. induction fs as [|[n t] fs IH]; [reflexivity|]. cbn. now rewrite IH. Qed.
Lemma align_pos t : 1 <= align t.
Proof.
  induction t as [ | | | |n t IH|p fs IH] using ty_induct; try (cbn; lia).
  destruct p; [cbn; lia|]. rewrite align_struct. induction fs as [|[n t] fs IHf]; cbn; [lia|]. inversion IH; subst. specialize (IHf ltac:(assumption)). lia.
Qed.

Lemma round_up_ge n a : 1 <= a -> n <= round_up n a.
Proof.
  intros H. unfold round_up. pose proof (N.div_mod (n + a - 1) a ltac:(lia)) as E.
  pose proof (N.mod_lt (n + a - 1) a ltac:(lia)) as L. nia.
Qed.
Lemma place_ge p o t : o <= place p o t.
Proof. unfold place. destruct p; [lia|]. apply round_up_ge, align_pos. Qed.

(** Where the fields end. *)
Fixpoint fields_end (p : bool) (o : N) (fs : list (string * ty)) : N :=
  match fs with [] => o | (_, t) :: r => fields_end p (place p o t + size t) r end.
Lemma size_struct p fs : size (Struct p fs) = if p then fields_end p 0 fs else round_up (fields_end p 0 fs) (align (Struct p fs)).
Proof.
  cbn [size]. assert (E : forall fs o, (fix go (o : N) (fs : list (string * ty)) : N :=
    match fs with [] => o | (_, t) :: r => go (place p o t + size t) r end) o fs = fields_end p o fs).
  { clear fs. induction fs as [|[n t] fs IH]; intros o; [reflexivity|]. cbn. apply IH. }
  rewrite E. reflexivity.
Qed.
Lemma fields_end_ge p fs : forall o, o <= fields_end p o fs.
Proof.
  induction fs as [|[n t] fs IH]; intros o; cbn; [lia|]. pose proof (place_ge p o t). specialize (IH (place p o t + size t)). lia.
Qed.
Lemma size_struct_ge p fs : fields_end p 0 fs <= size (Struct p fs).
Proof. rewrite size_struct. destruct p; [lia|]. apply round_up_ge, align_pos. Qed.

Lemma find_field_bounds p fs name : forall o fo t, find_field p o fs name = Some (fo, t) -> o <= fo /\ fo + size t <= fields_end p o fs.
Proof.
  induction fs as [|[n t0] fs IH]; intros o fo t H; cbn [find_field fields_end] in *; [discriminate|].
  pose proof (place_ge p o t0). destruct (String.eqb n name).
  - inversion H; subst. split; [assumption|]. apply fields_end_ge.
  - apply IH in H as [H1 H2]. split; [|exact H2]. pose proof (N.le_add_r (place p o t0) (size t0)). lia.
Qed.

(** Two differently named fields do not overlap. *)
Lemma find_field_apart p fs n1 n2 : n1 <> n2 -> forall o o1 t1 o2 t2,
  find_field p o fs n1 = Some (o1, t1) -> find_field p o fs n2 = Some (o2, t2) ->
  o1 + size t1 <= o2 \/ o2 + size t2 <= o1.
Proof.
  intros Hne. induction fs as [|[n t0] fs IH]; intros o o1 t1 o2 t2 H1 H2; cbn [find_field] in *; [discriminate|].
  destruct (String.eqb_spec n n1), (String.eqb_spec n n2); try congruence.
  - inversion H1; subst. apply find_field_bounds in H2. lia.
  - inversion H2; subst. apply find_field_bounds in H1. lia.
  - eapply IH; eassumption.
Qed.

Lemma locate_bounds path : forall t o t', locate t path = Some (o, t') -> o + size t' <= size t.
Proof.
  induction path as [|[name|i] path IH]; intros t o t' H; cbn [locate] in H.
  - inversion H; subst. lia.
  - destruct t as [ | | | | |p fs]; try discriminate. destruct (find_field p 0 fs name) as [[fo ft]|] eqn:E; [|discriminate].
    destruct (locate ft path) as [[o' t'']|] eqn:E2; [|discriminate]. inversion H; subst.
    apply IH in E2. apply find_field_bounds in E as [_ E]. pose proof (size_struct_ge p fs). lia.
  - destruct t as [ | | | |n t| ]; try discriminate. destruct (N.ltb_spec i n); [|discriminate].
    destruct (locate t path) as [[o' t'']|] eqn:E2; [|discriminate]. inversion H; subst. apply IH in E2. cbn [size]. nia.
Qed.

Lemma locate_apart q1 q2 : diverge q1 q2 -> forall t o1 t1 o2 t2,
  locate t q1 = Some (o1, t1) -> locate t q2 = Some (o2, t2) -> o1 + size t1 <= o2 \/ o2 + size t2 <= o1.
Proof.
  induction 1 as [n1 n2 p q Hne|i j p q Hne|s p q Hd IH]; intros t o1 t1 o2 t2 H1 H2.
  - cbn [locate] in *. destruct t as [ | | | | |pk fs]; try discriminate.
    destruct (find_field pk 0 fs n1) as [[a1 ft1]|] eqn:E1; [|discriminate]. destruct (find_field pk 0 fs n2) as [[a2 ft2]|] eqn:E2; [|discriminate].
    destruct (locate ft1 p) as [[b1 u1]|] eqn:L1; [|discriminate]. destruct (locate ft2 q) as [[b2 u2]|] eqn:L2; [|discriminate].
    inversion H1; inversion H2; subst. apply locate_bounds in L1, L2. pose proof (find_field_apart _ _ _ _ Hne _ _ _ _ _ E1 E2). lia.
  - cbn [locate] in *. destruct t as [ | | | |n t| ]; try discriminate.
    destruct (N.ltb_spec i n); [|discriminate]. destruct (N.ltb_spec j n); [|discriminate].
    destruct (locate t p) as [[b1 u1]|] eqn:L1; [|discriminate]. destruct (locate t q) as [[b2 u2]|] eqn:L2; [|discriminate].
    inversion H1; inversion H2; subst. apply locate_bounds in L1, L2. destruct (N.lt_trichotomy i j) as [Hij|[Hij|Hij]]; [|congruence|]; nia.
  - destruct s as [name|i]; cbn [locate] in *.
    + destruct t as [ | | | | |pk fs]; try discriminate. destruct (find_field pk 0 fs name) as [[a1 ft1]|] eqn:E1; [|discriminate].
      destruct (locate ft1 p) as [[b1 u1]|] eqn:L1; [|discriminate]. destruct (locate ft1 q) as [[b2 u2]|] eqn:L2; [|discriminate].
      inversion H1; inversion H2; subst. pose proof (IH _ _ _ _ _ L1 L2). lia.
    + destruct t as [ | | | |n t| ]; try discriminate. destruct (N.ltb_spec i n); [|discriminate].
      destruct (locate t p) as [[b1 u1]|] eqn:L1; [|discriminate]. destruct (locate t q) as [[b2 u2]|] eqn:L2; [|discriminate].
      inversion H1; inversion H2; subst. pose proof (IH _ _ _ _ _ L1 L2). lia.
Qed.

(** ** patch *)
Lemma lenN_patch bs o new : o + lenN new <= lenN bs -> lenN (patch bs o new) = lenN bs.
Proof. intros H. unfold patch. rewrite !lenN_app, !lenN_slice. lia. Qed.
Lemma nth_error_patch bs o new i : o + lenN new <= lenN bs ->
  nth_error (patch bs o new) (N.to_nat i) =
  if (o <=? i) && (i <? o + lenN new) then nth_error new (N.to_nat (i - o)) else nth_error bs (N.to_nat i).
Proof.
  intros H. unfold patch. assert (L1 : lenN (slice bs 0 o) = o) by (rewrite lenN_slice; lia).
  destruct (N.leb_spec o i) as [H1|H1]; cbn [andb].
  - rewrite nth_error_app2 by (unfold lenN in *; lia). replace (N.to_nat i - length (slice bs 0 o))%nat with (N.to_nat (i - o)) by (unfold lenN in *; lia).
    destruct (N.ltb_spec i (o + lenN new)) as [H2|H2].
    + rewrite nth_error_app1 by (unfold lenN in *; lia). reflexivity.
    + rewrite nth_error_app2 by (unfold lenN in *; lia). replace (N.to_nat (i - o) - length new)%nat with (N.to_nat (i - (o + lenN new))) by (unfold lenN in *; lia).
      destruct (N.lt_ge_cases i (lenN bs)) as [H3|H3].
      * rewrite nth_error_slice by lia. f_equal. lia.
      * rewrite !(proj2 (nth_error_None _ _)); [reflexivity| |]; [unfold lenN in *; lia|].
        pose proof (lenN_slice bs (o + lenN new) (lenN bs)). unfold lenN in *. lia.
  - rewrite nth_error_app1 by (unfold lenN in *; lia). rewrite nth_error_slice by lia. reflexivity.
Qed.
Lemma slice_ext {A} (l1 l2 : list A) o1 o2 n :
  (forall i, i < n -> nth_error l1 (N.to_nat (o1 + i)) = nth_error l2 (N.to_nat (o2 + i))) -> slice l1 o1 n = slice l2 o2 n.
Proof.
  intros H. apply list_ext. intros i. destruct (N.lt_ge_cases (N.of_nat i) n) as [Hi|Hi].
  - replace i with (N.to_nat (N.of_nat i)) by lia. rewrite !nth_error_slice by assumption. now apply H.
  - rewrite !(proj2 (nth_error_None _ _)); [reflexivity| |].
    + pose proof (lenN_slice l2 o2 n). unfold lenN in *. lia.
    + pose proof (lenN_slice l1 o1 n). unfold lenN in *. lia.
Qed.
Lemma slice_patch_in bs o new : o + lenN new <= lenN bs -> slice (patch bs o new) o (lenN new) = new.
Proof.
  intros H. rewrite <- (slice_full new) at 3. apply slice_ext. intros i Hi. rewrite nth_error_patch by assumption.
  rewrite (proj2 (N.leb_le _ _)) by lia. rewrite (proj2 (N.ltb_lt _ _)) by lia. cbn [andb]. f_equal. lia.
Qed.
Lemma slice_patch_out bs o new o2 n2 : o + lenN new <= lenN bs -> o + lenN new <= o2 \/ o2 + n2 <= o ->
  slice (patch bs o new) o2 n2 = slice bs o2 n2.
Proof.
  intros H Hd. apply slice_ext. intros i Hi. rewrite nth_error_patch by assumption.
  destruct (N.leb_spec o (o2 + i)); [|reflexivity]. destruct (N.ltb_spec (o2 + i) (o + lenN new)); [lia|reflexivity].
Qed.

(** ** get and set *)
Lemma lenN_set t path v bs : lenN bs = size t -> lenN (set t path v bs) = size t.
Proof.
  intros H. unfold set. destruct (locate t path) as [[o t']|] eqn:E; [|exact H]. apply locate_bounds in E.
  rewrite lenN_patch; [exact H|]. rewrite lenN_le_enc. lia.
Qed.
Lemma get_set_same t path o t' v bs : lenN bs = size t -> locate t path = Some (o, t') ->
  get t path (set t path v bs) = v mod 256 ^ size t'.
Proof.
  intros H E. unfold get, set. rewrite E. apply locate_bounds in E.
  pose proof (slice_patch_in bs o (le_enc (N.to_nat (size t')) v)) as S. rewrite lenN_le_enc, N2Nat.id in S.
  rewrite S by lia. rewrite le_dec_enc, N2Nat.id. reflexivity.
Qed.
Lemma get_set_other t q1 q2 v bs : lenN bs = size t -> diverge q1 q2 -> get t q2 (set t q1 v bs) = get t q2 bs.
Proof.
  intros H D. unfold get, set. destruct (locate t q2) as [[o2 t2]|] eqn:E2; [|reflexivity]. destruct (locate t q1) as [[o1 t1]|] eqn:E1; [|reflexivity].
  f_equal. pose proof (locate_bounds _ _ _ _ E1). apply slice_patch_out; rewrite lenN_le_enc, N2Nat.id; [lia|].
  pose proof (locate_apart _ _ D _ _ _ _ _ E1 E2). lia.
Qed.
