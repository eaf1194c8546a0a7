(** C36: the pool never hands out a picture that somebody can still see, and
    never one with the fingerprint of other contents. *)
From Verif Require Import Base PoolModel.

Lemma update_same {A} (f : A -> A) l : forall n x, nth_error l n = Some x -> nth_error (update l n f) n = Some (f x).
Proof. induction l as [|y l IH]; intros [|n] x H; try discriminate; cbn in *; [congruence|]. apply IH, H. Qed.
Lemma update_other {A} (f : A -> A) l : forall n m, n <> m -> nth_error (update l n f) m = nth_error l m.
Proof. induction l as [|y l IH]; intros [|n] [|m] H; cbn; try reflexivity; try congruence. apply IH. congruence. Qed.
Lemma update_length {A} (f : A -> A) l : forall n, length (update l n f) = length l.
Proof. induction l as [|y l IH]; intros [|n]; cbn; auto. Qed.
Lemma update_split {A} (f : A -> A) l : forall n x, nth_error l n = Some x -> exists a b, l = a ++ x :: b /\ update l n f = a ++ f x :: b /\ length a = n.
Proof.
  induction l as [|y l IH]; intros [|n] x H; try discriminate; cbn in *.
  - injection H as ->. exists [], l. auto.
  - destruct (IH n x H) as (a & b & -> & -> & <-). exists (y :: a), b. auto.
Qed.

(** The pictures of a list of slots. *)
Definition holders (l : list (option holder)) : list holder := flat_map (fun o => match o with Some h => [h] | None => [] end) l.
Definition pics (l : list (option holder)) : list nat := map ho_picture (holders l).
Lemma holders_app a b : holders (a ++ b) = holders a ++ holders b.
Proof. apply flat_map_app. Qed.
Lemma pics_app a b : pics (a ++ b) = pics a ++ pics b.
Proof. unfold pics. rewrite holders_app. apply map_app. Qed.
Lemma holders_in l h : In h (holders l) <-> In (Some h) l.
Proof.
  unfold holders. rewrite in_flat_map. split.
  - intros ([g|] & H & I); [destruct I as [->|[]]; exact H|destruct I].
  - intros H. exists (Some h). split; [exact H|left; reflexivity].
Qed.
Lemma pics_in l p : In p (pics l) <-> exists h, In (Some h) l /\ ho_picture h = p.
Proof.
  unfold pics. rewrite in_map_iff. split; intros (h & A & B).
  - exists h. split; [apply holders_in, B|exact A].
  - exists h. split; [exact B|apply holders_in, A].
Qed.
Lemma owners_zero l p : owners l p = 0%nat <-> ~ In p (pics l).
Proof.
  unfold owners. rewrite pics_in. split.
  - intros E (h & I & <-). assert (In (Some h) (filter (fun o => match o with Some g => Nat.eqb (ho_picture g) (ho_picture h) | None => false end) l)) as X.
    { apply filter_In. split; [exact I|]. apply Nat.eqb_refl. }
    destruct (filter _ l); [exact X|discriminate].
  - intros N. destruct (filter _ l) as [|o r] eqn:E; [reflexivity|]. exfalso. assert (In o (o :: r)) as X by (left; reflexivity). rewrite <- E in X. apply filter_In in X.
    destruct X as (I & B). destruct o as [h|]; [|discriminate]. apply N. exists h. split; [exact I|]. apply Nat.eqb_eq, B.
Qed.

Lemma NoDup_app_r {A} (a b : list A) : NoDup (a ++ b) -> NoDup b.
Proof. induction a as [|x a IH]; intros D; [exact D|]. inversion D; auto. Qed.
Lemma NoDup_app_apart {A} (a b : list A) x : NoDup (a ++ b) -> In x a -> In x b -> False.
Proof. induction a as [|y a IH]; intros D J K; [exact J|]. cbn in D. inversion D as [|? ? N D']; subst. destruct J as [->|J]; [apply N, in_or_app; auto|exact (IH D' J K)]. Qed.

Section Pool.
Variable allow_resize : bool.
Variable raw_hash : Z -> Z -> list Z -> Z.
Notation step := (pool_step allow_resize raw_hash).
Notation run := (pool_run allow_resize raw_hash).

Definition hash_of (x : picture) : Z := raw_hash (pi_width x) (pi_height x) (pi_contents x).
Definition alive (heap : list picture) (P : picture -> Prop) (p : nat) : Prop := exists x, nth_error heap p = Some x /\ pi_alive x = true /\ P x.
Definition no_cache (x : picture) : Prop := pi_cache x = None.
Definition coherent (x : picture) : Prop := forall v, pi_cache x = Some v -> v = hash_of x.

(** [quiet]: nobody computed the fingerprint through a mutable handle. *)
Record inv (quiet : bool) (w : world) : Prop := {
  i_unused : Forall (fun h => ho_pool h = false /\ alive (wo_heap w) no_cache (ho_picture h)) (wo_unused w);
  i_mutable : Forall (fun h => ho_pool h = true /\ alive (wo_heap w) (fun x => quiet = true -> no_cache x) (ho_picture h)) (holders (wo_mutable w));
  i_shared : Forall (fun h => ho_pool h = true /\ alive (wo_heap w) coherent (ho_picture h)) (holders (wo_shared w));
  i_distinct : NoDup (map ho_picture (wo_unused w) ++ pics (wo_mutable w));
  i_apart : forall p, In p (pics (wo_shared w)) -> ~ In p (map ho_picture (wo_unused w) ++ pics (wo_mutable w))
}.

Lemma alive_lt heap P p : alive heap P p -> (p < length heap)%nat.
Proof. intros (x & E & _). apply nth_error_Some. congruence. Qed.
Lemma alive_app heap P l p : alive heap P p -> alive (heap ++ l) P p.
Proof. intros A. pose proof (alive_lt _ _ _ A). destruct A as (x & E & B). exists x. rewrite nth_error_app1 by assumption. auto. Qed.
Lemma alive_update heap P f n p : n <> p -> alive heap P p -> alive (update heap n f) P p.
Proof. intros N (x & E & B). exists x. rewrite update_other by exact N. auto. Qed.
Lemma alive_weaken heap (P Q : picture -> Prop) p : (forall x, P x -> Q x) -> alive heap P p -> alive heap Q p.
Proof. intros H (x & E & A & B). exists x. auto. Qed.
Lemma alive_here heap (P Q : picture -> Prop) f p : (forall x, pi_alive x = true -> P x -> pi_alive (f x) = true /\ Q (f x)) -> alive heap P p -> alive (update heap p f) Q p.
Proof. intros H (x & E & A & B). exists (f x). split; [apply update_same, E|]. apply H; assumption. Qed.
Lemma alive_deref heap P p : alive heap P p -> exists x, deref heap p = Ok x /\ nth_error heap p = Some x /\ P x.
Proof. intros (x & E & A & B). exists x. unfold deref. rewrite E, A. auto. Qed.
Lemma deref_some heap p x : deref heap p = Ok x -> nth_error heap p = Some x /\ pi_alive x = true.
Proof. unfold deref. destruct (nth_error heap p) as [y|]; [|discriminate]. destruct (pi_alive y) eqn:A; [|discriminate]. intros E. injection E as <-. auto. Qed.

Lemma destroy_other l : forall heap p, Forall (fun h => ho_pool h = false) l -> ~ In p (map ho_picture l) -> nth_error (destroy_all heap l) p = nth_error heap p.
Proof.
  induction l as [|h l IH]; intros heap p F N; [reflexivity|]. inversion F as [|? ? H F']; subst. cbn [destroy_all]. rewrite IH by (auto; intros X; apply N; right; exact X).
  unfold run_deleter. rewrite H. cbn [fst]. apply update_other. intros E. apply N. left. exact E.
Qed.
Lemma destroy_length l : forall heap, length (destroy_all heap l) = length heap.
Proof. induction l as [|h l IH]; intros heap; [reflexivity|]. cbn [destroy_all]. rewrite IH. unfold run_deleter. destruct (ho_pool h); cbn [fst]; apply update_length. Qed.

Lemma Forall_conv {A} (P Q : A -> Prop) l : Forall P l -> (forall x, In x l -> P x -> Q x) -> Forall Q l.
Proof. intros F H. apply Forall_forall. intros x I. apply H; [exact I|]. exact (proj1 (Forall_forall _ _) F x I). Qed.

Lemma inv_start quiet : inv quiet pool_start.
Proof. split; try constructor. intros p []. Qed.

(** What a Make gives. *)
Lemma make_spec quiet w width height : inv quiet w ->
  match step w (Make width height) with
  | Ok (w', v) => exists p x, wo_mutable w' = wo_mutable w ++ [Some (mkHolder p true)] /\ wo_shared w' = wo_shared w /\
      nth_error (wo_heap w') p = Some x /\ pi_alive x = true /\ pi_width x = width /\ pi_height x = height /\ pi_cache x = None /\
      ~ In p (pics (wo_mutable w)) /\ ~ In p (pics (wo_shared w)) /\ ~ In p (map ho_picture (wo_unused w')) /\ 
      (forall q, In q (pics (wo_mutable w)) \/ In q (pics (wo_shared w)) -> nth_error (wo_heap w') q = nth_error (wo_heap w) q) /\
      v = 0 /\ inv quiet w'
  | Err e => e = PoolUnsupported /\ allow_resize = false /\ exists h r x, wo_unused w = h :: r /\ nth_error (wo_heap w) (ho_picture h) = Some x /\
      (pi_width x <> width \/ pi_height x <> height)
  end.
Proof.
  intros I. destruct w as [heap unused mutables shareds]. destruct I as [I1 I2 I3 I4 I5]. cbn [wo_heap wo_unused wo_mutable wo_shared] in *.
  cbn [pool_step]. unfold make_raster.
  assert (forall p, In p (pics mutables) -> (p < length heap)%nat) as LM.
  { intros p J. unfold pics in J. apply in_map_iff in J. destruct J as (h & <- & J). exact (alive_lt _ _ _ (proj2 (proj1 (Forall_forall _ _) I2 h J))). }
  assert (forall p, In p (pics shareds) -> (p < length heap)%nat) as LS.
  { intros p J. unfold pics in J. apply in_map_iff in J. destruct J as (h & <- & J). exact (alive_lt _ _ _ (proj2 (proj1 (Forall_forall _ _) I3 h J))). }
  (* a picture allocated after the heap [hp] *)
  assert (forall hp, length hp = length heap -> (forall q, In q (pics mutables) \/ In q (pics shareds) -> nth_error hp q = nth_error heap q) ->
    let x := mkPicture width height [] None true in
    exists p y, mutables ++ [Some (mkHolder (length hp) true)] = mutables ++ [Some (mkHolder p true)] /\ shareds = shareds /\
      nth_error (hp ++ [x]) p = Some y /\ pi_alive y = true /\ pi_width y = width /\ pi_height y = height /\ pi_cache y = None /\
      ~ In p (pics mutables) /\ ~ In p (pics shareds) /\ ~ In p (map ho_picture []) /\
      (forall q, In q (pics mutables) \/ In q (pics shareds) -> nth_error (hp ++ [x]) q = nth_error heap q) /\ 0 = 0 /\
      inv quiet (mkWorld (hp ++ [x]) [] (mutables ++ [Some (mkHolder (length hp) true)]) shareds)) as FRESH.
  { intros hp LH SAME x. exists (length hp), x.
    assert (nth_error (hp ++ [x]) (length hp) = Some x) as EX by (rewrite nth_error_app2, Nat.sub_diag by lia; reflexivity).
    assert (forall q, In q (pics mutables) \/ In q (pics shareds) -> nth_error (hp ++ [x]) q = nth_error heap q) as SX.
    { intros q J. rewrite nth_error_app1; [apply SAME, J|]. rewrite LH. destruct J; [apply LM|apply LS]; assumption. }
    assert (~ In (length hp) (pics mutables)) as N1 by (intros J; apply LM in J; lia).
    assert (~ In (length hp) (pics shareds)) as N2 by (intros J; apply LS in J; lia).
    do 7 (split; [first [reflexivity|exact EX]|]). split; [exact N1|]. split; [exact N2|]. split; [intros []|]. split; [exact SX|]. split; [reflexivity|].
    split; cbn [wo_heap wo_unused wo_mutable wo_shared].
    - constructor.
    - rewrite holders_app. apply Forall_app. split.
      + eapply Forall_conv; [exact I2|]. intros h J (A & y & B & C). split; [exact A|]. exists y. rewrite SX; [auto|]. left. apply in_map, J.
      + constructor; [|constructor]. split; [reflexivity|]. exists x. split; [exact EX|]. split; [reflexivity|]. reflexivity.
    - eapply Forall_conv; [exact I3|]. intros h J (A & y & B & C). split; [exact A|]. exists y. rewrite SX; [auto|]. right. apply in_map, J.
    - rewrite pics_app. cbn [map app]. cbn [map] in I4. apply NoDup_app_r in I4. apply (NoDup_Add (a := length hp) (l := pics mutables)); [|split; [exact I4|exact N1]].
      pose proof (Add_app (length hp) (pics mutables) []) as AA. rewrite app_nil_r in AA. exact AA.
    - intros p J. rewrite pics_app. cbn [map app]. intros K. apply in_app_or in K. destruct K as [K|[K|[]]].
      + apply (I5 p J). apply in_or_app. right. exact K.
      + cbn in K. subst p. exact (N2 J). }
  destruct unused as [|f r].
  - cbn [rbind fst snd ho_pool ho_picture]. unfold deref. specialize (FRESH heap eq_refl (fun q _ => eq_refl)). cbv zeta in FRESH.
    assert (nth_error (heap ++ [mkPicture width height [] None true]) (length heap) = Some (mkPicture width height [] None true)) as -> by (rewrite nth_error_app2, Nat.sub_diag by lia; reflexivity).
    cbn [pi_alive rbind pi_cache]. exact FRESH.
  - inversion I1 as [|? ? (PF & AF) I1']; subst. destruct (alive_deref _ _ _ AF) as (x & EX & NX & CX). rewrite EX. cbn [rbind].
    destruct (negb (pi_width x =? width) || negb (pi_height x =? height)) eqn:DIM.
    + destruct allow_resize eqn:AR.
      * cbn [rbind ho_pool ho_picture]. set (hp := destroy_all heap (f :: r)).
        assert (Forall (fun h => ho_pool h = false) (f :: r)) as FP by (eapply Forall_impl; [|exact I1]; intros h (A & _); exact A).
        assert (forall q, In q (pics mutables) \/ In q (pics shareds) -> nth_error hp q = nth_error heap q) as SAME.
        { intros q J. apply destroy_other; [exact FP|]. intros K. destruct J as [J|J].
          - exact (NoDup_app_apart _ _ _ I4 K J).
          - apply (I5 q J). apply in_or_app. left. exact K. }
        specialize (FRESH hp (destroy_length _ _) SAME). cbv zeta in FRESH. unfold deref.
        assert (nth_error (hp ++ [mkPicture width height [] None true]) (length hp) = Some (mkPicture width height [] None true)) as -> by (rewrite nth_error_app2, Nat.sub_diag by lia; reflexivity).
        cbn [pi_alive rbind pi_cache]. exact FRESH.
      * cbn [rbind]. split; [reflexivity|]. split; [reflexivity|]. exists f, r, x. split; [reflexivity|]. split; [exact NX|]. lia.
    + cbn [rbind]. rewrite PF. cbn [rbind ho_picture]. rewrite EX. cbn [rbind]. unfold no_cache in CX. rewrite CX.
      exists (ho_picture f), x. cbn [wo_heap wo_unused wo_mutable wo_shared]. cbn [map app] in I4, I5. inversion I4 as [|? ? N4 D4]; subst.
      assert (~ In (ho_picture f) (pics mutables)) as N1 by (intros J; apply N4, in_or_app; right; exact J).
      assert (~ In (ho_picture f) (pics shareds)) as N2 by (intros J; apply (I5 _ J); left; reflexivity).
      split; [reflexivity|]. split; [reflexivity|]. split; [exact NX|]. split; [exact (proj2 (deref_some _ _ _ EX))|]. split; [lia|]. split; [lia|]. split; [exact CX|].
      split; [exact N1|]. split; [exact N2|]. split; [intros J; apply N4, in_or_app; left; exact J|]. split; [reflexivity|]. split; [reflexivity|].
      split; cbn [wo_heap wo_unused wo_mutable wo_shared].
      * exact I1'.
      * rewrite holders_app. apply Forall_app. split; [exact I2|]. constructor; [|constructor]. split; [reflexivity|]. cbn. eapply alive_weaken; [|exact AF]. intros; assumption.
      * exact I3.
      * rewrite pics_app, app_assoc. cbn. apply (NoDup_Add (a := ho_picture f) (l := map ho_picture r ++ pics mutables)); [|split; [exact D4|exact N4]].
        pose proof (Add_app (ho_picture f) (map ho_picture r ++ pics mutables) []) as AA. rewrite app_nil_r in AA. exact AA.
      * intros p J. rewrite pics_app, app_assoc. intros K. apply in_app_or in K. destruct K as [K|[K|[]]].
        -- apply (I5 p J). right. exact K.
        -- cbn in K. subst p. exact (N2 J).
Qed.

(** What can be seen of a picture. *)
Definition seen (heap : list picture) (p : nat) : option (Z * Z * list Z * bool) :=
  match nth_error heap p with Some x => Some (pi_width x, pi_height x, pi_contents x, pi_alive x) | None => None end.
Definition visible (w : world) (p : nat) : Prop := In p (pics (wo_mutable w)) \/ In p (pics (wo_shared w)).

Lemma seen_cache heap n c p : seen (update heap n (set_cache c)) p = seen heap p.
Proof.
  unfold seen. destruct (Nat.eq_dec n p) as [->|N]; [|rewrite update_other by exact N; reflexivity].
  destruct (nth_error heap p) as [x|] eqn:E; [rewrite (update_same _ _ _ _ E); reflexivity|].
  assert (nth_error (update heap p (set_cache c)) p = None) as -> by (apply nth_error_None; rewrite update_length; apply nth_error_None, E). reflexivity.
Qed.
Lemma seen_other heap n f p : n <> p -> seen (update heap n f) p = seen heap p.
Proof. intros N. unfold seen. rewrite update_other by exact N. reflexivity. Qed.

Lemma slot_in l n h : slot l n = Ok h -> nth_error l n = Some (Some h).
Proof. unfold slot. destruct (nth_error l n) as [[g|]|]; intros E; try discriminate. injection E as ->. reflexivity. Qed.

(** Emptying a slot. *)
Lemma clear_slot l n h : nth_error l n = Some (Some h) ->
  exists a b, holders l = a ++ h :: b /\ holders (update l n (fun _ => None)) = a ++ b.
Proof.
  intros E. destruct (update_split (fun _ => None) l n (Some h) E) as (a & b & -> & -> & _). exists (holders a), (holders b). rewrite !holders_app. auto.
Qed.

Lemma alive_cache heap (P : picture -> Prop) c n p : (forall x, P x -> P (set_cache c x)) -> alive heap P p -> alive (update heap n (set_cache c)) P p.
Proof.
  intros H A. destruct (Nat.eq_dec n p) as [->|N]; [|apply alive_update; assumption]. eapply alive_here; [|exact A]. intros x B C. split; [exact B|apply H, C].
Qed.

(** A hash through a handle. *)
Lemma cached_hash_spec heap p heap' v : cached_hash raw_hash heap p = Ok (heap', v) -> exists x, nth_error heap p = Some x /\
  ((pi_cache x = Some v /\ heap' = heap) \/ (pi_cache x = None /\ v = hash_of x /\ heap' = update heap p (set_cache (Some v)))).
Proof.
  unfold cached_hash. destruct (deref heap p) as [x|] eqn:D; cbn [rbind]; [|discriminate]. apply deref_some in D. destruct D as (NX & _).
  destruct (pi_cache x) as [c|] eqn:C; intros E; injection E as <- <-; exists x; auto.
Qed.

Lemma step_spec quiet w op w' v : inv quiet w -> step w op = Ok (w', v) -> (quiet = true -> forall m, op <> HashMutable m) ->
  inv quiet w' /\
  (forall p, visible w p -> visible w' p -> (forall m c h, op = Write m c -> slot (wo_mutable w) m = Ok h -> ho_picture h <> p) -> seen (wo_heap w') p = seen (wo_heap w) p) /\
  (forall s h x, op = Hash s -> slot (wo_shared w) s = Ok h -> nth_error (wo_heap w) (ho_picture h) = Some x -> v = hash_of x).
Proof.
  intros I E Q. pose proof I as [I1 I2 I3 I4 I5]. destruct op as [width height|m c|m|m|s|s|m|s].
  - pose proof (make_spec quiet w width height I) as M. rewrite E in M. destruct M as (p & x & _ & _ & _ & _ & _ & _ & _ & _ & _ & _ & SAME & _ & I'). split; [exact I'|]. split; [|discriminate].
    intros q V _ _. unfold seen. rewrite (SAME q V). reflexivity.
  - destruct w as [heap unused mutables shareds]. cbn [wo_heap wo_unused wo_mutable wo_shared] in *. cbn [pool_step] in E.
    destruct (slot mutables m) as [h|] eqn:ES; cbn [rbind] in E; [|discriminate]. destruct (deref heap (ho_picture h)) as [x|] eqn:ED; cbn [rbind] in E; [|discriminate]. injection E as <- <-.
    apply slot_in in ES. pose proof (nth_error_In _ _ ES) as IN. apply holders_in in IN. pose proof (in_map ho_picture _ _ IN) as INP. fold (pics mutables) in INP.
    cbn [wo_heap wo_unused wo_mutable wo_shared]. split; [|split; [|discriminate]].
    + split; cbn [wo_heap wo_unused wo_mutable wo_shared]; try assumption.
      * eapply Forall_conv; [exact I1|]. intros g J (A & B). split; [exact A|]. apply alive_update; [|exact B].
        intros X. rewrite X in INP. exact (NoDup_app_apart _ _ _ I4 (in_map ho_picture _ _ J) INP).
      * eapply Forall_conv; [exact I2|]. intros g J (A & B). split; [exact A|]. destruct (Nat.eq_dec (ho_picture h) (ho_picture g)) as [X|X].
        -- rewrite X. eapply alive_here; [|exact B]. intros y Ay Cy. split; [exact Ay|exact Cy].
        -- apply alive_update; assumption.
      * eapply Forall_conv; [exact I3|]. intros g J (A & B). split; [exact A|]. apply alive_update; [|exact B].
        intros X. apply (I5 (ho_picture g)); [apply in_map, J|]. apply in_or_app. right. rewrite <- X. exact INP.
    + intros p _ _ N. apply seen_other. apply (N m c h); [reflexivity|]. unfold slot. rewrite ES. reflexivity.
  - destruct w as [heap unused mutables shareds]. cbn [wo_heap wo_unused wo_mutable wo_shared] in *. cbn [pool_step] in E.
    destruct (slot mutables m) as [h|] eqn:ES; cbn [rbind] in E; [|discriminate]. destruct (cached_hash raw_hash heap (ho_picture h)) as [[heap' v']|] eqn:EH; cbn [rbind] in E; [|discriminate]. injection E as <- <-.
    destruct quiet; [exfalso; exact (Q eq_refl m eq_refl)|]. cbn [wo_heap wo_unused wo_mutable wo_shared].
    apply slot_in in ES. pose proof (nth_error_In _ _ ES) as IN. apply holders_in in IN. pose proof (in_map ho_picture _ _ IN) as INP. fold (pics mutables) in INP.
    destruct (cached_hash_spec _ _ _ _ EH) as (x & NX & [(C & ->)|(C & -> & ->)]).
    + split; [exact I|]. split; [reflexivity|discriminate].
    + split; [|split; [intros; apply seen_cache|discriminate]].
      split; cbn [wo_heap wo_unused wo_mutable wo_shared]; try assumption.
      * eapply Forall_conv; [exact I1|]. intros g J (A & B). split; [exact A|]. apply alive_update; [|exact B].
        intros X. rewrite X in INP. exact (NoDup_app_apart _ _ _ I4 (in_map ho_picture _ _ J) INP).
      * eapply Forall_conv; [exact I2|]. intros g J (A & B). split; [exact A|]. apply alive_cache; [|exact B]. intros; discriminate.
      * eapply Forall_conv; [exact I3|]. intros g J (A & B). split; [exact A|]. apply alive_update; [|exact B].
        intros X. apply (I5 (ho_picture g)); [apply in_map, J|]. apply in_or_app. right. rewrite <- X. exact INP.
  - destruct w as [heap unused mutables shareds]. cbn [wo_heap wo_unused wo_mutable wo_shared] in *. cbn [pool_step] in E.
    destruct (slot mutables m) as [h|] eqn:ES; cbn [rbind] in E; [|discriminate]. destruct (deref heap (ho_picture h)) as [x|] eqn:ED; cbn [rbind] in E; [|discriminate].
    destruct (pi_cache x) as [c|] eqn:C; [discriminate|]. injection E as <- <-. cbn [wo_heap wo_unused wo_mutable wo_shared]. split; [|split; [reflexivity|discriminate]].
    apply slot_in in ES. destruct (clear_slot mutables m h ES) as (a & b & H1 & H2). unfold pics in *. rewrite H1 in *. rewrite map_app in *. cbn [map] in *.
    apply Forall_app in I2. destruct I2 as (F2 & G2). inversion G2 as [|? ? (PH & AH) G2']; subst.
    assert (NoDup (map ho_picture unused ++ map ho_picture a ++ map ho_picture b) /\ ~ In (ho_picture h) (map ho_picture unused ++ map ho_picture a ++ map ho_picture b)) as (D & N).
    { rewrite app_assoc in *. apply NoDup_remove in I4. exact I4. }
    split; cbn [wo_heap wo_unused wo_mutable wo_shared]; unfold pics; rewrite ?H2, ?map_app, ?holders_app; cbn [map].
    + exact I1.
    + apply Forall_app. auto.
    + apply Forall_app. split; [exact I3|]. constructor; [|constructor]. split; [exact PH|]. apply deref_some in ED. exists x. destruct ED as (NX & AX). split; [exact NX|]. split; [exact AX|]. intros u U. congruence.
    + exact D.
    + intros p J K. rewrite map_app in J. apply in_app_or in J. destruct J as [J|[<-|[]]]; [|exact (N K)]. apply (I5 p J). clear - K. rewrite !in_app_iff in *. cbn. tauto.
  - destruct w as [heap unused mutables shareds]. cbn [wo_heap wo_unused wo_mutable wo_shared] in *. cbn [pool_step] in E.
    destruct (nth_error shareds s) as [o|] eqn:ES; [|discriminate]. injection E as <- <-. cbn [wo_heap wo_unused wo_mutable wo_shared]. split; [|split; [reflexivity|discriminate]].
    assert (forall g, In g (holders (shareds ++ [o])) -> In g (holders shareds)) as SUB.
    { intros g J. apply holders_in. apply holders_in in J. apply in_app_or in J. destruct J as [J|[->|[]]]; [exact J|]. eapply nth_error_In, ES. }
    split; cbn [wo_heap wo_unused wo_mutable wo_shared]; try assumption.
    + apply Forall_forall. intros g J. exact (proj1 (Forall_forall _ _) I3 g (SUB g J)).
    + intros p J. apply I5. unfold pics in *. apply in_map_iff in J. destruct J as (g & <- & J). apply in_map, SUB, J.
  - destruct w as [heap unused mutables shareds]. cbn [wo_heap wo_unused wo_mutable wo_shared] in *. cbn [pool_step] in E.
    destruct (slot shareds s) as [h|] eqn:ES; cbn [rbind] in E; [|discriminate]. destruct (cached_hash raw_hash heap (ho_picture h)) as [[heap' v']|] eqn:EH; cbn [rbind] in E; [|discriminate]. injection E as <- <-.
    cbn [wo_heap wo_unused wo_mutable wo_shared].
    apply slot_in in ES. pose proof (nth_error_In _ _ ES) as IN. apply holders_in in IN. pose proof (in_map ho_picture _ _ IN) as INP. fold (pics shareds) in INP.
    destruct (proj1 (Forall_forall _ _) I3 h IN) as (PH & y & NY & AY & CY).
    destruct (cached_hash_spec _ _ _ _ EH) as (x & NX & CASES). assert (y = x) as -> by congruence.
    assert (v' = hash_of x) as EV by (destruct CASES as [(C & _)|(_ & C & _)]; [apply CY, C|exact C]).
    split; [|split].
    + destruct CASES as [(C & ->)|(C & _ & ->)]; [exact I|].
      split; cbn [wo_heap wo_unused wo_mutable wo_shared]; try assumption.
      * eapply Forall_conv; [exact I1|]. intros g J (A & B). split; [exact A|]. apply alive_update; [|exact B].
        intros X. apply (I5 _ INP). apply in_or_app. left. rewrite X. apply in_map, J.
      * eapply Forall_conv; [exact I2|]. intros g J (A & B). split; [exact A|]. apply alive_update; [|exact B].
        intros X. apply (I5 _ INP). apply in_or_app. right. rewrite X. apply in_map, J.
      * eapply Forall_conv; [exact I3|]. intros g J (A & B). split; [exact A|]. destruct (Nat.eq_dec (ho_picture h) (ho_picture g)) as [X|X].
        -- rewrite <- X. exists (set_cache (Some v') x). split; [apply update_same, NX|]. split; [exact AY|]. intros u U. cbn in U. injection U as <-. exact EV.
        -- apply alive_update; assumption.
    + intros p _ _ _. destruct CASES as [(C & ->)|(C & _ & ->)]; [reflexivity|]. apply seen_cache.
    + intros s0 h0 x0 EO EH0 EX0. injection EO as <-. unfold slot in EH0. rewrite ES in EH0. injection EH0 as <-. congruence.
  - destruct w as [heap unused mutables shareds]. cbn [wo_heap wo_unused wo_mutable wo_shared] in *. cbn [pool_step] in E.
    destruct (nth_error mutables m) as [[h|]|] eqn:ES; [| |discriminate].
    2:{ injection E as <- <-. split; [exact I|]. split; [reflexivity|discriminate]. }
    destruct (clear_slot mutables m h ES) as (a & b & H1 & H2). unfold pics in *. rewrite H1 in *. rewrite map_app in *. cbn [map] in *.
    apply Forall_app in I2. destruct I2 as (F2 & G2). inversion G2 as [|? ? (PH & AH) G2']; subst.
    unfold run_deleter in E. rewrite PH in E. injection E as <- <-. cbn [wo_heap wo_unused wo_mutable wo_shared].
    assert (NoDup (map ho_picture unused ++ map ho_picture a ++ map ho_picture b) /\ ~ In (ho_picture h) (map ho_picture unused ++ map ho_picture a ++ map ho_picture b)) as (D & N).
    { rewrite app_assoc in *. apply NoDup_remove in I4. exact I4. }
    split; [|split; [intros; apply seen_cache|discriminate]].
    split; cbn [wo_heap wo_unused wo_mutable wo_shared]; unfold pics; rewrite ?H2, ?map_app; cbn [map ho_picture].
    + apply Forall_app. split.
      * eapply Forall_conv; [exact I1|]. intros g J (A & B). split; [exact A|]. apply alive_cache; [|exact B]. intros; reflexivity.
      * constructor; [|constructor]. split; [reflexivity|]. cbn. eapply alive_here; [|exact AH]. intros y Ay _. split; [exact Ay|reflexivity].
    + apply Forall_app. split; (eapply Forall_impl; [|eassumption]); intros g (A & B); (split; [exact A|]); (apply alive_cache; [|exact B]); intros; reflexivity.
    + eapply Forall_conv; [exact I3|]. intros g J (A & B). split; [exact A|]. apply alive_cache; [|exact B]. intros x _ u U. discriminate.
    + rewrite <- app_assoc. cbn [app]. apply (NoDup_Add (a := ho_picture h) (l := map ho_picture unused ++ map ho_picture a ++ map ho_picture b)); [apply Add_app|]. split; assumption.
    + intros p J K. apply (I5 p J). clear - K. rewrite !in_app_iff in *. cbn in *. tauto.
  - destruct w as [heap unused mutables shareds]. cbn [wo_heap wo_unused wo_mutable wo_shared] in *. cbn [pool_step] in E.
    destruct (nth_error shareds s) as [[h|]|] eqn:ES; [| |discriminate].
    2:{ injection E as <- <-. split; [exact I|]. split; [reflexivity|discriminate]. }
    destruct (clear_slot shareds s h ES) as (a & b & H1 & H2). set (shareds' := update shareds s _) in *.
    assert (forall g, In g (holders shareds') -> In g (holders shareds)) as SUB.
    { intros g J. rewrite H2 in J. rewrite H1. rewrite in_app_iff in *. cbn. tauto. }
    assert (In h (holders shareds)) as IN by (rewrite H1; apply in_or_app; right; left; reflexivity).
    pose proof (in_map ho_picture _ _ IN) as INP. fold (pics shareds) in INP. destruct (proj1 (Forall_forall _ _) I3 h IN) as (PH & AH).
    assert (forall p, In p (pics shareds') -> In p (pics shareds)) as SUBP.
    { intros p J. unfold pics in *. apply in_map_iff in J. destruct J as (g & <- & J). apply in_map, SUB, J. }
    destruct (Nat.eqb_spec (owners shareds' (ho_picture h)) 0) as [O|O].
    + unfold run_deleter in E. rewrite PH in E. injection E as <- <-. cbn [wo_heap wo_unused wo_mutable wo_shared]. apply owners_zero in O.
      split; [|split; [intros; apply seen_cache|discriminate]].
      split; cbn [wo_heap wo_unused wo_mutable wo_shared]; rewrite ?map_app; cbn [map ho_picture].
      * apply Forall_app. split.
        -- eapply Forall_conv; [exact I1|]. intros g J (A & B). split; [exact A|]. apply alive_cache; [|exact B]. intros; reflexivity.
        -- constructor; [|constructor]. split; [reflexivity|]. cbn. eapply alive_here; [|exact AH]. intros y Ay _. split; [exact Ay|reflexivity].
      * eapply Forall_impl; [|exact I2]. intros g (A & B). split; [exact A|]. apply alive_cache; [|exact B]. intros; reflexivity.
      * apply Forall_forall. intros g J. destruct (proj1 (Forall_forall _ _) I3 g (SUB g J)) as (A & B). split; [exact A|]. apply alive_cache; [|exact B]. intros x _ u U. discriminate.
      * rewrite <- app_assoc. cbn [app]. apply (NoDup_Add (a := ho_picture h) (l := map ho_picture unused ++ pics mutables)); [apply Add_app|]. split; [exact I4|]. exact (I5 _ INP).
      * intros p J K. rewrite !in_app_iff in K. cbn in K. destruct K as [[K|[K|[]]]|K].
        -- apply (I5 p (SUBP p J)). apply in_or_app. auto.
        -- subst p. exact (O J).
        -- apply (I5 p (SUBP p J)). apply in_or_app. auto.
    + injection E as <- <-. cbn [wo_heap wo_unused wo_mutable wo_shared]. split; [|split; [reflexivity|discriminate]].
      split; cbn [wo_heap wo_unused wo_mutable wo_shared]; try assumption.
      * apply Forall_forall. intros g J. exact (proj1 (Forall_forall _ _) I3 g (SUB g J)).
      * intros p J. exact (I5 p (SUBP p J)).
Qed.

Lemma run_inv quiet : forall l w w', inv quiet w -> run w l = Ok w' -> (quiet = true -> forall m, ~ In (HashMutable m) l) -> inv quiet w'.
Proof.
  induction l as [|op l IH]; intros w w' I E Q; cbn [pool_run] in E.
  - injection E as <-. exact I.
  - destruct (step w op) as [[w1 v]|] eqn:ES; cbn [rbind] in E; [|discriminate].
    assert (inv quiet w1) as I1. { apply (step_spec quiet w op w1 v I ES). intros q m ->. apply (Q q m). left. reflexivity. }
    apply (IH w1 w' I1 E). intros q m J. apply (Q q m). right. exact J.
Qed.
End Pool.

(** Handing out: the picture is not behind any handle, is not in the pool any
    more, and has no cached fingerprint. *)
Theorem C36_fresh :
  forall allow_resize raw_hash l w width height w' v,
  pool_run allow_resize raw_hash pool_start l = Ok w -> pool_step allow_resize raw_hash w (Make width height) = Ok (w', v) ->
  exists p x, wo_mutable w' = wo_mutable w ++ [Some (mkHolder p true)] /\ wo_shared w' = wo_shared w /\
    nth_error (wo_heap w') p = Some x /\ pi_alive x = true /\ pi_width x = width /\ pi_height x = height /\ pi_cache x = None /\
    (forall h, In (Some h) (wo_mutable w) \/ In (Some h) (wo_shared w) -> ho_picture h <> p) /\
    (forall h, In h (wo_unused w') -> ho_picture h <> p).
Proof.
  intros ar rh l w width height w' v R E. assert (inv rh false w) as I by (apply (run_inv ar rh false l _ _ (inv_start rh false) R); discriminate).
  pose proof (make_spec ar rh false w width height I) as M. rewrite E in M. destruct M as (p & x & A1 & A2 & A3 & A4 & A5 & A6 & A7 & A8 & A9 & A10 & _).
  exists p, x. do 7 (split; [assumption|]). split.
  - intros h [J|J] <-; [apply A8|apply A9]; apply pics_in; exists h; auto.
  - intros h J <-. apply A10, in_map, J.
Qed.

(** At any time, two different mutable handles own different pictures, and no
    picture of a mutable handle is behind a shared one. *)
Theorem C36_exclusive :
  forall allow_resize raw_hash l w, pool_run allow_resize raw_hash pool_start l = Ok w ->
  (forall i j g h, nth_error (wo_mutable w) i = Some (Some g) -> nth_error (wo_mutable w) j = Some (Some h) -> ho_picture g = ho_picture h -> i = j) /\
  (forall g h, In (Some g) (wo_mutable w) -> In (Some h) (wo_shared w) -> ho_picture g <> ho_picture h) /\
  (forall g h, In g (wo_unused w) -> In (Some h) (wo_mutable w) \/ In (Some h) (wo_shared w) -> ho_picture g <> ho_picture h) /\
  (forall h, In (Some h) (wo_mutable w) \/ In (Some h) (wo_shared w) -> exists x, nth_error (wo_heap w) (ho_picture h) = Some x /\ pi_alive x = true).
Proof.
  intros ar rh l w R. assert (inv rh false w) as [I1 I2 I3 I4 I5] by (apply (run_inv ar rh false l _ _ (inv_start rh false) R); discriminate).
  split; [|split; [|split]].
  - intros i j g h Ei Ej EP. apply NoDup_app_r in I4. clear - Ei Ej EP I4. revert i j Ei Ej I4. induction (wo_mutable w) as [|o r IH]; intros [|i] [|j] Ei Ej D; try discriminate; cbn in Ei, Ej.
    + reflexivity.
    + injection Ei as ->. exfalso. change (pics (Some g :: r)) with (ho_picture g :: pics r) in D. inversion D as [|? ? N _]; subst. apply N, pics_in. exists h. split; [eapply nth_error_In, Ej|congruence].
    + injection Ej as ->. exfalso. change (pics (Some h :: r)) with (ho_picture h :: pics r) in D. inversion D as [|? ? N _]; subst. apply N, pics_in. exists g. split; [eapply nth_error_In, Ei|exact EP].
    + f_equal. apply IH; try assumption. change (pics (o :: r)) with (pics ([o] ++ r)) in D. rewrite pics_app in D. exact (NoDup_app_r _ _ D).
  - intros g h Ig Ih EP. apply (I5 (ho_picture h)); [apply pics_in; exists h; auto|]. apply in_or_app. right. apply pics_in. exists g. auto.
  - intros g h Ig [Ih|Ih] EP.
    + assert (In (ho_picture h) (pics (wo_mutable w))) as J by (apply pics_in; exists h; auto). apply (in_map ho_picture) in Ig. rewrite EP in Ig. exact (NoDup_app_apart _ _ _ I4 Ig J).
    + apply (I5 (ho_picture h)); [apply pics_in; exists h; auto|]. apply in_or_app. left. rewrite <- EP. apply in_map, Ig.
  - intros h [J|J]; apply holders_in in J.
    + destruct (proj1 (Forall_forall _ _) I2 h J) as (_ & x & A & B & _). eauto.
    + destruct (proj1 (Forall_forall _ _) I3 h J) as (_ & x & A & B & _). eauto.
Qed.

(** As long as a picture is behind a handle, nothing but a write through its
    own mutable handle changes it. *)
Theorem C36_unchanged :
  forall allow_resize raw_hash l w op w' v p,
  pool_run allow_resize raw_hash pool_start l = Ok w -> pool_step allow_resize raw_hash w op = Ok (w', v) ->
  (exists h, (In (Some h) (wo_mutable w) \/ In (Some h) (wo_shared w)) /\ ho_picture h = p) ->
  (exists h, (In (Some h) (wo_mutable w') \/ In (Some h) (wo_shared w')) /\ ho_picture h = p) ->
  (forall m c h, op = Write m c -> nth_error (wo_mutable w) m = Some (Some h) -> ho_picture h <> p) ->
  exists x y, nth_error (wo_heap w) p = Some x /\ nth_error (wo_heap w') p = Some y /\
    pi_width y = pi_width x /\ pi_height y = pi_height x /\ pi_contents y = pi_contents x /\ pi_alive y = true.
Proof.
  intros ar rh l w op w' v p R E V V' N. assert (inv rh false w) as I by (apply (run_inv ar rh false l _ _ (inv_start rh false) R); discriminate).
  assert (forall u, (exists h, (In (Some h) (wo_mutable u) \/ In (Some h) (wo_shared u)) /\ ho_picture h = p) -> visible u p) as VIS.
  { intros u (h & [J|J] & <-); [left|right]; apply pics_in; exists h; auto. }
  destruct (step_spec ar rh false w op w' v I E ltac:(discriminate)) as (I' & S & _).
  specialize (S p (VIS w V) (VIS w' V')). assert (seen (wo_heap w') p = seen (wo_heap w) p) as SE.
  { apply S. intros m c h EO ES. apply (N m c h EO). apply slot_in, ES. }
  assert (exists x, nth_error (wo_heap w) p = Some x /\ pi_alive x = true) as (x & NX & AX).
  { destruct I as [_ I2 I3 _ _]. destruct V as (h & [J|J] & <-); apply holders_in in J.
    - destruct (proj1 (Forall_forall _ _) I2 h J) as (_ & x & A & B & _). eauto.
    - destruct (proj1 (Forall_forall _ _) I3 h J) as (_ & x & A & B & _). eauto. }
  unfold seen in SE. rewrite NX in SE. destruct (nth_error (wo_heap w') p) as [y|] eqn:NY; [|discriminate]. injection SE as E1 E2 E3 E4. exists x, y. repeat split; congruence.
Qed.

(** The fingerprint reported by a shared handle is that of its picture. *)
Theorem C36_hash :
  forall allow_resize raw_hash l w s h x w' v,
  pool_run allow_resize raw_hash pool_start l = Ok w -> nth_error (wo_shared w) s = Some (Some h) -> nth_error (wo_heap w) (ho_picture h) = Some x ->
  pool_step allow_resize raw_hash w (Hash s) = Ok (w', v) -> v = raw_hash (pi_width x) (pi_height x) (pi_contents x).
Proof.
  intros ar rh l w s h x w' v R ES EX E. assert (inv rh false w) as I by (apply (run_inv ar rh false l _ _ (inv_start rh false) R); discriminate).
  destruct (step_spec ar rh false w (Hash s) w' v I E ltac:(discriminate)) as (_ & _ & S). apply (S s h x eq_refl); [|exact EX]. unfold slot. rewrite ES. reflexivity.
Qed.

(** The only failures: a change of size while pictures wait in the pool; the
    use of an empty or unknown handle; making a handle shared after its
    fingerprint was computed through the mutable handle. *)
Theorem C36_failures :
  forall allow_resize raw_hash l w op e,
  pool_run allow_resize raw_hash pool_start l = Ok w -> pool_step allow_resize raw_hash w op = Err e ->
  match e with
  | PoolUnsupported => allow_resize = false /\ exists width height h r x, op = Make width height /\ wo_unused w = h :: r /\
      nth_error (wo_heap w) (ho_picture h) = Some x /\ (pi_width x <> width \/ pi_height x <> height)
  | PoolAssert => exists m k, op = Freeze m /\ In (HashMutable k) l
  | PoolUndefined =>
      match op with
      | Make _ _ => False
      | Write m _ | HashMutable m | Freeze m => forall h, nth_error (wo_mutable w) m <> Some (Some h)
      | Hash s => forall h, nth_error (wo_shared w) s <> Some (Some h)
      | DropMutable m => nth_error (wo_mutable w) m = None
      | Copy s | DropShared s => nth_error (wo_shared w) s = None
      end
  end.
Proof.
  intros ar rh l w op e R E. assert (inv rh false w) as I by (apply (run_inv ar rh false l _ _ (inv_start rh false) R); discriminate).
  pose proof I as [I1 I2 I3 _ _].
  assert (forall n, match slot (wo_mutable w) n with Ok h => exists x, deref (wo_heap w) (ho_picture h) = Ok x | Err e => e = PoolUndefined /\ forall h, nth_error (wo_mutable w) n <> Some (Some h) end) as SM.
  { intros n. unfold slot. destruct (nth_error (wo_mutable w) n) as [[h|]|] eqn:EN; [|split; [reflexivity|discriminate]|split; [reflexivity|discriminate]].
    apply nth_error_In, holders_in in EN. destruct (alive_deref _ _ _ (proj2 (proj1 (Forall_forall _ _) I2 h EN))) as (x & A & _). eauto. }
  assert (forall n, match slot (wo_shared w) n with Ok h => exists x, deref (wo_heap w) (ho_picture h) = Ok x | Err e => e = PoolUndefined /\ forall h, nth_error (wo_shared w) n <> Some (Some h) end) as SS.
  { intros n. unfold slot. destruct (nth_error (wo_shared w) n) as [[h|]|] eqn:EN; [|split; [reflexivity|discriminate]|split; [reflexivity|discriminate]].
    apply nth_error_In, holders_in in EN. destruct (alive_deref _ _ _ (proj2 (proj1 (Forall_forall _ _) I3 h EN))) as (x & A & _). eauto. }
  destruct op as [width height|m c|m|m|s|s|m|s].
  - pose proof (make_spec ar rh false w width height I) as M. rewrite E in M. destruct M as (-> & AR & h & r & x & A & B & C). split; [exact AR|]. exists width, height, h, r, x. auto.
  - destruct w as [heap unused mutables shareds]. cbn [pool_step wo_heap wo_mutable wo_shared] in *. specialize (SM m). destruct (slot mutables m) as [h|]; cbn [rbind] in E.
    + destruct SM as (x & D). rewrite D in E. discriminate.
    + destruct SM as (-> & N). injection E as <-. exact N.
  - destruct w as [heap unused mutables shareds]. cbn [pool_step wo_heap wo_mutable wo_shared] in *. specialize (SM m). destruct (slot mutables m) as [h|]; cbn [rbind] in E.
    + destruct SM as (x & D). unfold cached_hash in E. rewrite D in E. cbn [rbind] in E. destruct (pi_cache x); discriminate.
    + destruct SM as (-> & N). injection E as <-. exact N.
  - destruct (slot (wo_mutable w) m) as [h|] eqn:ES.
    + specialize (SM m). rewrite ES in SM. destruct SM as (x & D).
      assert ((exists k, In (HashMutable k) l) \/ forall k, ~ In (HashMutable k) l) as [(k & H)|Q].
      { clear. induction l as [|o l [(k & H)|IH]]; [right; intros k []|left; exists k; right; exact H|].
        destruct o as [| |k| | | | |]; try (right; intros j [J|J]; [discriminate|exact (IH j J)]). left. exists k. left. reflexivity. }
      * assert (e = PoolAssert) as ->; [|exists m, k; auto]. destruct w as [heap unused mutables shareds]. cbn [pool_step wo_heap wo_mutable wo_shared] in *. rewrite ES in E. cbn [rbind] in E. rewrite D in E. cbn [rbind] in E.
        destruct (pi_cache x); [|discriminate]. injection E as <-. reflexivity.
      * exfalso. assert (inv rh true w) as [_ J2 _ _ _] by (apply (run_inv ar rh true l _ _ (inv_start rh true) R); intros _; exact Q).
        pose proof ES as ES'. apply slot_in, nth_error_In, holders_in in ES'. destruct (proj1 (Forall_forall _ _) J2 h ES') as (_ & y & A & _ & B). pose proof (deref_some _ _ _ D) as (DX & _). assert (y = x) as -> by congruence.
        destruct w as [heap unused mutables shareds]. cbn [pool_step wo_heap wo_mutable wo_shared] in *. rewrite ES in E. cbn [rbind] in E. rewrite D in E. cbn [rbind] in E. rewrite (B eq_refl) in E. discriminate.
    + specialize (SM m). rewrite ES in SM. destruct SM as (-> & N). destruct w as [heap unused mutables shareds]. cbn [pool_step wo_heap wo_mutable wo_shared] in *. rewrite ES in E. injection E as <-. exact N.
  - destruct w as [heap unused mutables shareds]. cbn [pool_step wo_heap wo_mutable wo_shared] in *. destruct (nth_error shareds s); [discriminate|]. injection E as <-. reflexivity.
  - destruct w as [heap unused mutables shareds]. cbn [pool_step wo_heap wo_mutable wo_shared] in *. specialize (SS s). destruct (slot shareds s) as [h|]; cbn [rbind] in E.
    + destruct SS as (x & D). unfold cached_hash in E. rewrite D in E. cbn [rbind] in E. destruct (pi_cache x); discriminate.
    + destruct SS as (-> & N). injection E as <-. exact N.
  - destruct w as [heap unused mutables shareds]. cbn [pool_step wo_heap wo_mutable wo_shared] in *. destruct (nth_error mutables m) as [[h|]|]; [|discriminate|injection E as <-; reflexivity].
    destruct (run_deleter heap unused h). discriminate.
  - destruct w as [heap unused mutables shareds]. cbn [pool_step wo_heap wo_mutable wo_shared] in *. destruct (nth_error shareds s) as [[h|]|]; [|discriminate|injection E as <-; reflexivity].
    destruct (Nat.eqb _ 0); [|discriminate]. destruct (run_deleter heap unused h). discriminate.
Qed.

(** A picture is written, shared twice, its fingerprint taken, and it is only
    recycled (without the fingerprint) after the last of the handles is gone. *)
Definition C36_history : list pool_op := [Make 2 1; Write 0 [5; 6]; Freeze 0; Copy 0; Hash 1; DropShared 0; Make 2 1; DropShared 1; Make 2 1].
Example C36_example :
  pool_run false (fun _ _ l => fold_right Z.add 0 l) pool_start C36_history =
  Ok (mkWorld [mkPicture 2 1 [5; 6] None true; mkPicture 2 1 [] None true] [] [None; Some (mkHolder 1 true); Some (mkHolder 0 true)] [None; None]).
Proof. vm_compute. reflexivity. Qed.
Example C36_example_resize :
  pool_run false (fun _ _ _ => 0) pool_start [Make 2 1; DropMutable 0; Make 4 1] = Err PoolUnsupported /\
  pool_run true (fun _ _ _ => 0) pool_start [Make 2 1; DropMutable 0; Make 4 1] = Ok (mkWorld [mkPicture 2 1 [] None false; mkPicture 4 1 [] None true] [] [None; Some (mkHolder 1 true)] []) /\
  pool_run true (fun _ _ _ => 0) pool_start [Make 2 1; HashMutable 0; Freeze 0] = Err PoolAssert.
Proof. vm_compute. auto. Qed.

Print Assumptions C36_fresh.
Print Assumptions C36_exclusive.
Print Assumptions C36_unchanged.
Print Assumptions C36_hash.
Print Assumptions C36_failures.
