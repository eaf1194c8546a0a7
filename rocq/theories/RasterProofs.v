(** Lemmas about planes. *)
From Coq Require FinFun.
From Verif Require Import Base MVModel MVProofs MBProofs FrameModel FrameProofs RasterModel.

(** A plane whose storage has the size of its dimensions. *)
Definition shaped (p : plane) : Prop := 0 < pl_w p /\ 0 < pl_h p /\ zlen (pl_px p) = pl_w p * pl_h p.
Definition plane_ok (p : plane) : Prop := shaped p /\ bytes_ok (pl_px p).
Definition same_dims (p q : plane) : Prop := pl_w p = pl_w q /\ pl_h p = pl_h q.

(** The pixel at a position inside of the plane. *)
Definition at_px (p : plane) (x y : Z) : Z := nth (pix_index p x y) (pl_px p) 0.

Lemma inside_iff p x y : inside p x y = true <-> 0 <= x < pl_w p /\ 0 <= y < pl_h p.
Proof. unfold inside. lia. Qed.

Lemma pix_index_lt p x y : shaped p -> inside p x y = true -> (pix_index p x y < length (pl_px p))%nat.
Proof.
  intros (Hw & Hh & Hl) H. apply inside_iff in H. unfold pix_index, zlen in *.
  assert (y * pl_w p + x < pl_w p * pl_h p) by nia. lia.
Qed.

Lemma pix_index_inj p x y x' y' : inside p x y = true -> inside p x' y' = true ->
  pix_index p x y = pix_index p x' y' -> x = x' /\ y = y'.
Proof.
  intros H H' E. apply inside_iff in H, H'. unfold pix_index in E.
  assert (y * pl_w p + x = y' * pl_w p + x') by nia.
  assert (y = y') by nia. subst. lia.
Qed.

Lemma pget_some p x y : shaped p -> inside p x y = true -> pget p x y = Some (at_px p x y).
Proof. intros Hp H. unfold pget, at_px. rewrite H. apply nth_error_nth'. apply pix_index_lt; assumption. Qed.

Definition put_px (p : plane) (x y v : Z) : plane := mkPlane (pl_w p) (pl_h p) (set_nth (pl_px p) (pix_index p x y) v).
Lemma pset_some p x y v : inside p x y = true -> pset p x y v = Some (put_px p x y v).
Proof. intros H. unfold pset, put_px. rewrite H. reflexivity. Qed.

Lemma set_nth_len {A} (l : list A) : forall k v, length (set_nth l k v) = length l.
Proof. induction l; destruct k; cbn; intros; auto. Qed.

Lemma shaped_put p x y v : shaped p -> shaped (put_px p x y v).
Proof. unfold shaped, put_px, zlen; cbn. rewrite set_nth_len. auto. Qed.
Lemma same_dims_put p x y v : same_dims (put_px p x y v) p.
Proof. split; reflexivity. Qed.
Lemma inside_dims p q x y : same_dims p q -> inside p x y = inside q x y.
Proof. intros [H1 H2]. unfold inside. rewrite H1, H2. reflexivity. Qed.
Lemma same_dims_refl p : same_dims p p.
Proof. split; reflexivity. Qed.
Lemma same_dims_sym p q : same_dims p q -> same_dims q p.
Proof. intros [A B]. split; auto. Qed.
Lemma same_dims_trans p q r : same_dims p q -> same_dims q r -> same_dims p r.
Proof. intros [A B] [C D]. split; congruence. Qed.

Lemma at_put_eq p x y v : shaped p -> inside p x y = true -> at_px (put_px p x y v) x y = v.
Proof. intros Hp H. unfold at_px, put_px, pix_index; cbn. apply nth_set_nth_eq. apply pix_index_lt; assumption. Qed.
Lemma at_put_ne p x y v x' y' : shaped p -> inside p x y = true -> inside p x' y' = true -> ~ (x = x' /\ y = y') ->
  at_px (put_px p x y v) x' y' = at_px p x' y'.
Proof.
  intros Hp H H' N. unfold at_px, put_px, pix_index; cbn. apply nth_set_nth_ne.
  - apply pix_index_lt; assumption.
  - intros E. apply N. eapply pix_index_inj; try eassumption. symmetry. exact E.
Qed.
Lemma at_put p x y v x' y' : shaped p -> inside p x y = true -> inside p x' y' = true ->
  at_px (put_px p x y v) x' y' = if (x =? x') && (y =? y') then v else at_px p x' y'.
Proof.
  intros Hp H H'. destruct ((x =? x') && (y =? y')) eqn:E.
  - assert (x = x' /\ y = y') as [-> ->] by lia. apply at_put_eq; assumption.
  - apply at_put_ne; try assumption. lia.
Qed.

(** Extensionality. *)
Lemma plane_ext p q : shaped p -> shaped q -> same_dims p q ->
  (forall x y, inside p x y = true -> at_px p x y = at_px q x y) -> p = q.
Proof.
  intros (Hw & Hh & Hl) (_ & _ & Hl') [E1 E2] H. destruct p as [w h l], q as [w' h' l']; cbn in *. subst w' h'. f_equal.
  apply (nth_ext _ _ 0 0); [unfold zlen in *; lia|].
  intros n Hn. unfold zlen in *.
  specialize (H (Z.of_nat n mod w) (Z.of_nat n / w)).
  assert (B : Z.of_nat n < w * h) by lia.
  assert (inside (mkPlane w h l) (Z.of_nat n mod w) (Z.of_nat n / w) = true) as I.
  { apply inside_iff; cbn. split; [apply Z.mod_pos_bound; lia|].
    split; [apply Z.div_pos; lia|apply Z.div_lt_upper_bound; lia]. }
  specialize (H I). unfold at_px, pix_index in H; cbn in H.
  replace (Z.of_nat n / w * w + Z.of_nat n mod w) with (Z.of_nat n) in H by (rewrite (Z.div_mod (Z.of_nat n) w) at 1; lia).
  rewrite Nat2Z.id in H. exact H.
Qed.

Lemma at_px_byte p x y : plane_ok p -> inside p x y = true -> byte_ok (at_px p x y).
Proof.
  intros [Hs Hb] H. unfold at_px. unfold bytes_ok in Hb.
  apply (proj1 (Forall_forall _ _) Hb). apply nth_In. apply pix_index_lt; assumption.
Qed.

Lemma plane_ok_at p : shaped p -> (forall x y, inside p x y = true -> byte_ok (at_px p x y)) -> plane_ok p.
Proof.
  intros Hs H. split; [exact Hs|]. apply Forall_forall. intros v Hv.
  apply (In_nth _ _ 0) in Hv. destruct Hv as (n & Hn & <-).
  destruct Hs as (Hw & Hh & Hl). unfold zlen in Hl.
  assert (B : Z.of_nat n < pl_w p * pl_h p) by lia.
  specialize (H (Z.of_nat n mod pl_w p) (Z.of_nat n / pl_w p)).
  assert (inside p (Z.of_nat n mod pl_w p) (Z.of_nat n / pl_w p) = true) as I.
  { apply inside_iff. split; [apply Z.mod_pos_bound; lia|].
    split; [apply Z.div_pos; lia|apply Z.div_lt_upper_bound; lia]. }
  specialize (H I). unfold at_px, pix_index in H.
  replace (Z.of_nat n / pl_w p * pl_w p + Z.of_nat n mod pl_w p) with (Z.of_nat n) in H
    by (rewrite (Z.div_mod (Z.of_nat n) (pl_w p)) at 1; lia).
  rewrite Nat2Z.id in H. exact H.
Qed.

Lemma shaped_blank w h : 0 < w -> 0 < h -> shaped (blank_plane w h).
Proof. intros. unfold shaped, blank_plane, zlen; cbn. rewrite repeat_length. nia. Qed.

(** ** Loops *)
Lemma ofold_app {A S} (f : S -> A -> option S) l l' s :
  ofold f (l ++ l') s = obind (ofold f l s) (ofold f l').
Proof. revert s. induction l as [|a l IH]; intros; cbn; [reflexivity|]. destruct (f s a); cbn; auto. Qed.

Lemma ofold_inv {A S} (P : S -> Prop) (f : S -> A -> option S) l : forall s, P s ->
  (forall s a, In a l -> P s -> exists s', f s a = Some s' /\ P s') ->
  exists s', ofold f l s = Some s' /\ P s'.
Proof.
  induction l as [|a l IH]; intros s Hs H; cbn; [eauto|].
  destruct (H s a (or_introl eq_refl) Hs) as (s1 & -> & H1). cbn.
  apply IH; [exact H1|]. intros. apply H; [right; assumption|assumption].
Qed.

Lemma zseq_in n x : In x (zseq n) <-> 0 <= x < n.
Proof.
  unfold zseq. rewrite in_map_iff. split.
  - intros (k & <- & H). apply in_seq in H. lia.
  - intros H. exists (Z.to_nat x). split; [lia|]. apply in_seq. lia.
Qed.
Lemma zseq_nodup n : NoDup (zseq n).
Proof. unfold zseq. apply FinFun.Injective_map_NoDup; [intros a b; lia|apply seq_NoDup]. Qed.

Lemma cells_in n c r : In (c, r) (cells n) <-> 0 <= c < n /\ 0 <= r < n.
Proof.
  unfold cells. rewrite in_flat_map. split.
  - intros (y & Hy & H). apply in_map_iff in H. destruct H as (x & E & Hx). injection E as <- <-.
    apply zseq_in in Hx, Hy. auto.
  - intros [Hc Hr]. exists r. split; [apply zseq_in; exact Hr|]. apply in_map_iff. exists c. split; [reflexivity|].
    apply zseq_in. exact Hc.
Qed.

Lemma NoDup_app_disj {A} (a b : list A) : NoDup a -> NoDup b -> (forall x, In x a -> ~ In x b) -> NoDup (a ++ b).
Proof.
  induction a as [|x a IH]; cbn; intros Ha Hb D; [exact Hb|].
  inversion_clear Ha as [|? ? N Ha']. constructor.
  - rewrite in_app_iff. intros [H|H]; [contradiction|]. apply (D x); auto.
  - apply IH; auto.
Qed.

Lemma cells_nodup n : NoDup (cells n).
Proof.
  unfold cells. pose proof (zseq_nodup n) as N. revert N. generalize (zseq n) at 1 3. intros l.
  induction l as [|r l IH]; cbn; intros Hn; [constructor|]. inversion_clear Hn as [|? ? A B].
  apply NoDup_app_disj.
  - apply FinFun.Injective_map_NoDup; [intros a b E; congruence|apply zseq_nodup].
  - apply IH. exact B.
  - intros [c r'] H H'. apply in_map_iff in H. destruct H as (x & E & _). injection E as <- <-.
    apply in_flat_map in H'. destruct H' as (y & Hy & H'). apply in_map_iff in H'. destruct H' as (x' & E & _).
    injection E as -> ->. contradiction.
Qed.

(** Assignments to a block: what is at a cell afterwards. *)
Definition assigned (l : list (Z * Z * Z)) (c r : Z) : option Z :=
  fold_left (fun acc '(c', r', v) => if (c' =? c) && (r' =? r) then Some v else acc) l None.

Lemma assigned_fold l c r : forall o,
  fold_left (fun acc '(c', r', v) => if (c' =? c) && (r' =? r) then Some v else acc) l o =
  match assigned l c r with Some v => Some v | None => o end.
Proof.
  unfold assigned. induction l as [|[[c' r'] v] l IH]; intros o; cbn; [reflexivity|].
  destruct ((c' =? c) && (r' =? r)).
  - rewrite IH. destruct (fold_left _ l None); reflexivity.
  - apply IH.
Qed.
Lemma assigned_cons c' r' v l c r :
  assigned ((c', r', v) :: l) c r =
  match assigned l c r with Some v => Some v | None => if (c' =? c) && (r' =? r) then Some v else None end.
Proof. unfold assigned at 1. cbn. apply assigned_fold. Qed.

Lemma assign_block_spec x0 y0 l : forall p, shaped p ->
  (forall c r v, In (c, r, v) l -> inside p (x0 + c) (y0 + r) = true) ->
  exists p', assign_block x0 y0 l p = Some p' /\ shaped p' /\ same_dims p' p /\
    forall x y, inside p x y = true ->
      at_px p' x y = match assigned l (x - x0) (y - y0) with Some v => v | None => at_px p x y end.
Proof.
  unfold assign_block. induction l as [|[[c r] v] l IH]; intros p Hp H; cbn [ofold].
  - exists p. split; [reflexivity|]. split; [exact Hp|]. split; [apply same_dims_refl|]. reflexivity.
  - rewrite pset_some by (apply (H c r v); left; reflexivity). cbn [obind].
    assert (I0 : inside p (x0 + c) (y0 + r) = true) by (apply (H c r v); left; reflexivity).
    destruct (IH (put_px p (x0 + c) (y0 + r) v)) as (p' & E & Hs & Hd & Ha).
    + apply shaped_put. exact Hp.
    + intros c' r' v' Hi. rewrite (inside_dims _ p) by apply same_dims_put. apply (H c' r' v'). right. exact Hi.
    + exists p'. split; [exact E|]. split; [exact Hs|]. split; [eapply same_dims_trans; [exact Hd|apply same_dims_put]|].
      intros x y Hi. rewrite Ha by (rewrite (inside_dims _ p) by apply same_dims_put; exact Hi).
      rewrite assigned_cons. destruct (assigned l (x - x0) (y - y0)); [reflexivity|].
      rewrite at_put by assumption.
      replace ((x0 + c =? x) && (y0 + r =? y)) with ((c =? x - x0) && (r =? y - y0)) by lia.
      destruct ((c =? x - x0) && (r =? y - y0)); reflexivity.
Qed.

Lemma assigned_in l c r v : assigned l c r = Some v -> In (c, r, v) l.
Proof.
  induction l as [|[[c' r'] v'] l IH]; [discriminate|]. rewrite assigned_cons.
  destruct (assigned l c r) as [w|] eqn:E.
  - intros [= ->]. right. auto.
  - destruct ((c' =? c) && (r' =? r)) eqn:F; [|discriminate]. intros [= ->].
    assert (c' = c /\ r' = r) as [-> ->] by lia. left. reflexivity.
Qed.
Lemma assigned_some l c r v : In (c, r, v) l -> exists v', assigned l c r = Some v'.
Proof.
  induction l as [|[[c' r'] v'] l IH]; [contradiction|]. intros [E|H]; rewrite assigned_cons.
  - injection E as -> -> ->. destruct (assigned l c r); [eauto|]. rewrite !Z.eqb_refl. cbn. eauto.
  - destruct (IH H) as (w & ->). eauto.
Qed.

(** A read-modify-write loop over distinct cells. *)
Lemma ofold_rmw (x0 y0 : Z) (F : Z -> Z -> Z -> option Z) (G : Z -> Z -> Z -> Z) l : NoDup l -> forall p, shaped p ->
  (forall c r, In (c, r) l -> inside p (x0 + c) (y0 + r) = true) ->
  (forall c r, In (c, r) l -> F c r (at_px p (x0 + c) (y0 + r)) = Some (G c r (at_px p (x0 + c) (y0 + r)))) ->
  exists p', ofold (fun p '(c, r) => let? v := pget p (x0 + c) (y0 + r) in
                                     let? s := F c r v in
                                     pset p (x0 + c) (y0 + r) s) l p = Some p' /\
    shaped p' /\ same_dims p' p /\
    forall x y, inside p x y = true ->
      (In (x - x0, y - y0) l -> at_px p' x y = G (x - x0) (y - y0) (at_px p x y)) /\
      (~ In (x - x0, y - y0) l -> at_px p' x y = at_px p x y).
Proof.
  induction l as [|[c r] l IH]; intros Hn p Hp Hi HF; cbn [ofold].
  - exists p. split; [reflexivity|]. split; [exact Hp|]. split; [apply same_dims_refl|]. cbn. tauto.
  - inversion_clear Hn as [|? ? N Hn'].
    assert (I0 : inside p (x0 + c) (y0 + r) = true) by (apply Hi; left; reflexivity).
    rewrite pget_some by assumption. cbn [obind].
    rewrite HF by (left; reflexivity). cbn [obind].
    rewrite pset_some by assumption. cbn [obind].
    set (v := G c r (at_px p (x0 + c) (y0 + r))).
    assert (K : forall c' r', In (c', r') l -> at_px (put_px p (x0 + c) (y0 + r) v) (x0 + c') (y0 + r') = at_px p (x0 + c') (y0 + r')).
    { intros c' r' H. apply at_put_ne; try assumption; [apply Hi; right; exact H|].
      intros [E1 E2]. apply N. assert (c = c' /\ r = r') as [-> ->] by lia. exact H. }
    destruct (IH Hn' (put_px p (x0 + c) (y0 + r) v)) as (p' & E & Hs & Hd & Ha).
    + apply shaped_put. exact Hp.
    + intros c' r' H. rewrite (inside_dims _ p) by apply same_dims_put. apply Hi. right. exact H.
    + intros c' r' H. rewrite K by exact H. apply HF. right. exact H.
    + exists p'. split; [exact E|]. split; [exact Hs|]. split; [eapply same_dims_trans; [exact Hd|apply same_dims_put]|].
      intros x y Hxy. destruct (Ha x y) as [A1 A2]; [rewrite (inside_dims _ p) by apply same_dims_put; exact Hxy|].
      split.
      * intros [Ein|Hin].
        -- injection Ein as -> ->. rewrite A2 by exact N.
           rewrite at_put by assumption.
           replace ((x0 + (x - x0) =? x) && (y0 + (y - y0) =? y)) with true by lia.
           unfold v. f_equal. f_equal; lia.
        -- rewrite A1 by exact Hin. f_equal. specialize (K _ _ Hin).
           replace (x0 + (x - x0)) with x in K by lia. replace (y0 + (y - y0)) with y in K by lia. exact K.
      * intros Hnin. rewrite A2 by (intros H; apply Hnin; right; exact H).
        apply at_put_ne; try assumption. intros [E1 E2]. apply Hnin. left. f_equal; lia.
Qed.
