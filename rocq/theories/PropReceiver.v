(** C38 (the order in which the receiver decodes), C39 (stored states can be
    restored) and C40 (what can stop the receiver). *)
From Verif Require Import Base PacketModel PropPacket ReceiverModel ReceiverProofs.
From Coq Require Import Sorted.

Definition strictly_increasing (l : list Z) : Prop := StronglySorted Z.lt l.

Section Run.
Context {D : Type}.
Variable decode : D -> list Z -> option D.
Variable hash : D -> Z.
Variable connection : Z.
Notation receive := (receive decode hash connection).
Notation receive_all := (receive_all decode hash connection).

Lemma sorted_app a b : strictly_increasing a -> strictly_increasing b -> (forall x y, In x a -> In y b -> x < y) -> strictly_increasing (a ++ b).
Proof.
  unfold strictly_increasing. induction a as [|x a IH]; intros A B H; [exact B|]. cbn. inversion A as [|? ? A' F]; subst. constructor.
  - apply IH; auto. intros; apply H; [right|]; assumption.
  - apply Forall_app. split; [exact F|]. apply Forall_forall. intros y Y. apply H; [left; reflexivity|exact Y].
Qed.
Lemma sorted_short l : (length l <= 1)%nat -> strictly_increasing l.
Proof. destruct l as [|x [|y l]]; cbn; intros; [constructor|repeat constructor|lia]. Qed.

Lemma run_order l : forall r r' log acks, rinv hash r -> receive_all r l = Ok (r', log, acks) ->
  rinv hash r' /\ rc_initial r' = rc_initial r /\ rc_next r <= rc_next r' /\ strictly_increasing (map fst log) /\ (forall x, In x log -> rc_next r <= fst x < rc_next r').
Proof.
  induction l as [|[[p t] dl] l IH]; intros r r' log acks I E; cbn [ReceiverModel.receive_all] in E.
  - injection E as <- <- <-. split; [exact I|]. split; [reflexivity|]. split; [lia|]. split; [constructor|intros x []].
  - destruct (receive r p t dl) as [[[r1 lg] a]|e] eqn:E1; cbn [rbind] in E; [|discriminate].
    destruct (receive_all r1 l) as [[[r2 lg2] ak]|e] eqn:E2; cbn [rbind] in E; [|discriminate]. injection E as <- <- <-.
    destruct (receive_inv decode hash connection r p t dl r1 lg a I E1) as (I1 & EI & N1 & B1 & (l1 & l2 & -> & L1 & L2 & O)).
    destruct (IH r1 r2 lg2 ak I1 E2) as (I2 & EI2 & N2 & S2 & B2). split; [exact I2|]. split; [congruence|]. split; [lia|]. split.
    + rewrite map_app. apply sorted_app; [|exact S2|].
      * rewrite map_app. apply sorted_app; [apply sorted_short; rewrite map_length; exact L1|apply sorted_short; rewrite map_length; exact L2|].
        intros x y X Y. apply in_map_iff in X. apply in_map_iff in Y. destruct X as (u & <- & U), Y as (v & <- & W). exact (O u v U W).
      * intros x y X Y. apply in_map_iff in X. apply in_map_iff in Y. destruct X as (u & <- & U), Y as (v & <- & W). apply B1 in U. apply B2 in W. lia.
    + intros x X. apply in_app_or in X. destruct X as [X|X]; [apply B1 in X; lia|apply B2 in X; lia].
Qed.

(** ** Frames in the table *)

(** The fragments that have arrived are not empty. *)
Definition filled (f : fragmented) : Prop := forall q, In q (fr_fragments f) -> pk_valid q = true -> pk_payload q <> [].
Lemma replace_in l : forall n p q, In q (replace_nth l n p) -> In q l \/ q = p.
Proof. induction l as [|x l IH]; intros [|n] p q; cbn; [tauto|tauto|intros [<-|I]; auto|intros [<-|I]; auto]. destruct (IH n p q I); auto. Qed.
Lemma filled_add f p g : filled f -> pk_payload p <> [] -> add_packet f p = Ok g -> filled g.
Proof.
  intros FF NP. unfold add_packet. destruct (negb (sane f p)); [discriminate|]. destruct (nth_error _ _) as [old|]; [|discriminate]. destruct (pk_valid old); intros E; injection E as <-; [exact FF|].
  intros q I V. cbn in I. apply replace_in in I. destruct I as [I| ->]; [apply FF; assumption|exact NP].
Qed.
Lemma filled_incoming c p g : pk_payload p <> [] -> incoming c p = Ok g -> filled g.
Proof.
  intros NP. unfold incoming. destruct (negb _); [discriminate|]. apply filled_add; [|exact NP]. intros q I V. cbn in I. apply repeat_spec in I. subst q. discriminate.
Qed.
Lemma all_valid l : missing l = 0 -> forall q, In q l -> pk_valid q = true.
Proof.
  intros M q I. destruct (pk_valid q) eqn:V; [reflexivity|]. apply In_nth_error in I. destruct I as (n & I). pose proof (missing_positive l n q I V). lia.
Qed.
Lemma filled_whole f : assembling f -> filled f -> complete f = true -> 0 < fr_count f -> concat (map pk_payload (fr_fragments f)) <> [].
Proof.
  intros (A1 & A2 & A3) FF C N. unfold complete in C. destruct (fr_fragments f) as [|q l] eqn:E; [unfold zlen in A1; cbn in A1; lia|]. cbn.
  assert (pk_payload q <> []) as X by (apply FF; [rewrite E; left; reflexivity|apply (all_valid (q :: l)); [lia|left; reflexivity]]). destruct (pk_payload q); [congruence|discriminate].
Qed.

(** What is in the table came from packets of the history. *)
Definition from_history (hist : list packet) (k : Z) (f : fragmented) : Prop :=
  assembling f /\ fr_connection f = connection /\ fr_frame f = k /\ complete f = false /\ filled f /\
  exists q, In q hist /\ pk_connection q = connection /\ pk_frame q = k /\ pk_source q = fr_source f /\ pk_target q = fr_target f /\ pk_count q = fr_count f.

Record hinv (hist : list packet) (r : receiver D) : Prop := {
  hi_frames : forall k f, In (k, f) (rc_frames r) -> from_history hist k f;
  hi_complete : forall s, In s (rc_complete r) -> exists q, In q hist /\ pk_target q = s /\ pk_frame q < rc_next r
}.

Lemma add_packet_fields f p g : add_packet f p = Ok g -> fr_connection g = fr_connection f /\ fr_source g = fr_source f /\ fr_target g = fr_target f /\ fr_frame g = fr_frame f /\ fr_count g = fr_count f.
Proof. unfold add_packet. destruct (negb (sane f p)); [discriminate|]. destruct (nth_error _ _) as [old|]; [|discriminate]. destruct (pk_valid old); intros E; injection E as <-; repeat split. Qed.

(** The frame after the packet, in terms of the packet; and why it may fail. *)
Lemma add_to_spec hist r p : hinv hist r -> rinv hash r -> packet_fits p ->
  match add_to connection r p with
  | Ok f => assembling f /\ filled f /\ fr_connection f = connection /\ pk_connection p = connection /\ fr_frame f = pk_frame p /\ fr_source f = pk_source p /\ fr_target f = pk_target p /\ fr_count f = pk_count p
  | Err e => e = PInvalid /\ (pk_connection p <> connection \/
      exists q, In q hist /\ pk_frame q = pk_frame p /\ (pk_source q <> pk_source p \/ pk_target q <> pk_target p \/ pk_count q <> pk_count p))
  end.
Proof.
  intros HI RI F. pose proof F as (_ & _ & _ & _ & FR & _ & _ & NP & V). unfold add_to.
  assert (match incoming connection p with
    | Ok f => assembling f /\ filled f /\ fr_connection f = connection /\ pk_connection p = connection /\ fr_frame f = pk_frame p /\ fr_source f = pk_source p /\ fr_target f = pk_target p /\ fr_count f = pk_count p
    | Err e => e = PInvalid /\ (pk_connection p <> connection \/ exists q, In q hist /\ pk_frame q = pk_frame p /\ (pk_source q <> pk_source p \/ pk_target q <> pk_target p \/ pk_count q <> pk_count p)) end) as INC.
  { pose proof (C19_first_packet connection p F) as P. destruct (incoming connection p) as [g|e] eqn:EI; [|destruct P; auto]. pose proof (filled_incoming connection p g NP EI) as FLD. destruct P as (A & B & C & E & G & H & I & _). auto 10. }
  destruct (rc_frames r) as [|[k f] rest] eqn:EF; [exact INC|].
  destruct (Z.eqb_spec (pk_frame p) (rc_next r)) as [E|N]; [|exact INC]. clear INC.
  assert (k = pk_frame p) as ->.
  { pose proof (one_frame_keys _ _ (ri_frames _ _ RI) k) as X. rewrite EF in X. rewrite E. apply X. left. reflexivity. }
  destruct (hi_frames hist r HI (pk_frame p) f) as (A & FC & FF & _ & FI & q & Q1 & Q2 & Q3 & Q4 & Q5 & Q6); [rewrite EF; left; reflexivity|].
  pose proof (C19_any_packet f p A V ltac:(lia)) as P. destruct (add_packet f p) as [g|e] eqn:EA.
  - pose proof (filled_add f p g FI NP EA) as FLD. destruct P as (P1 & P2 & _). destruct (add_packet_fields f p g EA) as (G1 & G2 & G3 & G4 & G5). rewrite G1, G2, G3, G4, G5. unfold sane in P2. rewrite !Bool.andb_true_iff, !Z.eqb_eq in P2. intuition congruence.
  - destruct P as (-> & P). split; [reflexivity|]. destruct (Z.eq_dec (pk_connection p) connection) as [EC|NC]; [right|left; exact NC]. exists q. split; [exact Q1|]. split; [exact Q3|].
    unfold sane in P. destruct (Z.eq_dec (pk_source q) (pk_source p)); [|auto]. destruct (Z.eq_dec (pk_target q) (pk_target p)); [|auto]. right. right. intros EC'.
    rewrite FC, EC, FF, <- Q4, <- Q5, <- Q6, EC', e, e0, !Z.eqb_refl in P. cbn in P. lia.
Qed.

Lemma hist_mono hist p r : hinv hist r -> hinv (hist ++ [p]) r.
Proof.
  intros [A B]. split.
  - intros k f I. destruct (A k f I) as (A1 & A2 & A3 & A4 & A5 & q & Q & R). split; [exact A1|]. split; [exact A2|]. split; [exact A3|]. split; [exact A4|]. split; [exact A5|]. exists q. split; [apply in_or_app; auto|exact R].
  - intros s I. destruct (B s I) as (q & Q & R). exists q. split; [apply in_or_app; auto|exact R].
Qed.

Lemma receive_hinv hist r p t dl r' log a : rinv hash r -> hinv hist r -> packet_fits p -> receive r p t dl = Ok (r', log, a) -> hinv (hist ++ [p]) r'.
Proof.
  intros RI HI F E. rewrite (receive_spec decode hash connection r p t dl RI) in E. destruct (Z.ltb_spec (pk_frame p) (rc_next r)) as [L|G].
  { injection E as <- <- <-. apply hist_mono, HI. }
  destruct (skip_to decode r p) as [[d lg]|e]; cbn [rbind] in E; [|discriminate].
  pose proof (add_to_spec hist r p HI RI F) as AD. destruct (add_to connection r p) as [f|e]; cbn [of_packet rbind] in E; [|discriminate].
  destruct AD as (A1 & AF & A2 & A3 & A4 & A5 & A6 & A7).
  destruct (complete f) eqn:CF.
  - destruct (apply_frame decode hash r d f) as [[[[pl st] de] fr]|e] eqn:AP; cbn [rbind] in E; [|discriminate]. destruct (negb _); [discriminate|]. injection E as <- <- <-.
    destruct (apply_spec decode hash connection r d f pl st de fr RI AP) as (_ & _ & _ & _ & _ & _ & dropped & kept & new & H1 & H2 & H3 & _). split; cbn.
    + intros k g [].
    + intros s S. rewrite H2 in S. apply in_app_or in S. destruct S as [S|S].
      * destruct (hi_complete hist r HI s) as (q & Q & T & U); [rewrite H1; apply in_or_app; auto|]. exists q. split; [apply in_or_app; auto|]. split; [exact T|lia].
      * exists p. split; [apply in_or_app; right; left; reflexivity|]. apply H3 in S. split; [destruct S; congruence|lia].
  - destruct (negb _); [discriminate|]. injection E as <- <- <-. split; cbn.
    + intros k g [X|[]]. injection X as <- <-. split; [exact A1|]. split; [exact A2|]. split; [exact A4|]. split; [exact CF|]. split; [exact AF|]. exists p. split; [apply in_or_app; right; left; reflexivity|]. auto 10.
    + intros s S. destruct (hi_complete hist r HI s S) as (q & Q & T & U). exists q. split; [apply in_or_app; auto|]. split; [exact T|lia].
Qed.

Definition packets_of (l : list (packet * Z * Z)) : list packet := map (fun x => fst (fst x)) l.

Lemma run_hinv l : forall hist r r' log acks, rinv hash r -> hinv hist r -> Forall packet_fits (packets_of l) -> receive_all r l = Ok (r', log, acks) -> rinv hash r' /\ hinv (hist ++ packets_of l) r'.
Proof.
  induction l as [|[[p t] dl] l IH]; intros hist r r' log acks RI HI F E; cbn [ReceiverModel.receive_all] in E.
  - injection E as <- <- <-. cbn. rewrite app_nil_r. auto.
  - destruct (receive r p t dl) as [[[r1 lg] a]|e] eqn:E1; cbn [rbind] in E; [|discriminate].
    destruct (receive_all r1 l) as [[[r2 lg2] ak]|e] eqn:E2; cbn [rbind] in E; [|discriminate]. injection E as <- <- <-. inversion F as [|? ? Fp F']; subst.
    destruct (receive_inv decode hash connection r p t dl r1 lg a RI E1) as (I1 & _).
    destruct (IH (hist ++ [p]) r1 r2 lg2 ak I1 (receive_hinv hist r p t dl r1 lg a RI HI Fp E1) F' E2) as (I2 & H2). split; [exact I2|]. rewrite <- app_assoc in H2. exact H2.
Qed.

Lemma start_hinv d : hinv [] (receiver_start hash d).
Proof. split; cbn; [intros k f []|intros s []]. Qed.

(** *** Stored states *)

(** No repeated states, and all of them stored. *)
Definition stored (r : receiver D) : Prop := NoDup (rc_complete r) /\ forall s, In s (rc_complete r) -> In s (map fst (rc_decoders r)).

Lemma receive_stored hist r p t dl r' log a : rinv hash r -> hinv hist r -> stored r -> packet_fits p ->
  (forall q, In q hist -> pk_target q = pk_target p -> pk_frame q = pk_frame p) ->
  receive r p t dl = Ok (r', log, a) -> stored r'.
Proof.
  intros RI HI (ND & ST) F DIS E. rewrite (receive_spec decode hash connection r p t dl RI) in E. destruct (Z.ltb_spec (pk_frame p) (rc_next r)) as [L|G].
  { injection E as <- <- <-. split; assumption. }
  destruct (skip_to decode r p) as [[d lg]|e]; cbn [rbind] in E; [|discriminate].
  pose proof (add_to_spec hist r p HI RI F) as AD. destruct (add_to connection r p) as [f|e]; cbn [of_packet rbind] in E; [|discriminate].
  destruct AD as (A1 & AF & A2 & A3 & A4 & A5 & A6 & A7).
  destruct (complete f) eqn:CF.
  - destruct (apply_frame decode hash r d f) as [[[[pl st] de] fr]|e] eqn:AP; cbn [rbind] in E; [|discriminate]. destruct (negb _); [discriminate|]. injection E as <- <- <-.
    destruct (apply_spec decode hash connection r d f pl st de fr RI AP) as (_ & _ & _ & _ & _ & _ & dropped & kept & new & H1 & H2 & H3 & H4 & H5 & H6).
    assert (forall s, In s new -> ~ In s (rc_complete r)) as NEW.
    { intros s S I. destruct (hi_complete hist r HI s I) as (q & Q & T & U). apply H3 in S. destruct S as (_ & S). specialize (DIS q Q). rewrite T, S, A6 in DIS. specialize (DIS eq_refl). lia. }
    rewrite H1 in ND. unfold stored. cbn. subst st. split.
    + assert (NoDup kept) as NK by (clear - ND; induction dropped as [|x l IH]; [exact ND|inversion ND; auto]).
      destruct new as [|s [|s' new]]; [rewrite app_nil_r; exact NK| |cbn in H4; lia].
      apply (NoDup_Add (a := s) (l := kept)); [pose proof (Add_app s kept []) as AA; rewrite app_nil_r in AA; exact AA|]. split; [exact NK|].
      intros K. apply (NEW s); [left; reflexivity|]. rewrite H1. apply in_or_app. auto.
    + intros s S. apply H6. apply in_app_or in S. destruct S as [S|S]; [left|right; exact S]. split.
      * apply ST. rewrite H1. apply in_or_app. auto.
      * intros X. clear - ND S X. induction dropped as [|y l IH]; [exact X|]. cbn in ND. inversion ND as [|? ? N ND']; subst. destruct X as [->|X]; [apply N, in_or_app; auto|auto].
  - destruct (negb _); [discriminate|]. injection E as <- <- <-. split; assumption.
Qed.

(** Different frames have different target states. *)
Definition distinct_targets (l : list packet) : Prop := forall p q, In p l -> In q l -> pk_target p = pk_target q -> pk_frame p = pk_frame q.

Lemma run_stored l : forall hist r r' log acks, rinv hash r -> hinv hist r -> stored r -> Forall packet_fits (packets_of l) -> distinct_targets (hist ++ packets_of l) ->
  receive_all r l = Ok (r', log, acks) -> rinv hash r' /\ stored r'.
Proof.
  induction l as [|[[p t] dl] l IH]; intros hist r r' log acks RI HI ST F DT E; cbn [ReceiverModel.receive_all] in E.
  - injection E as <- <- <-. auto.
  - destruct (receive r p t dl) as [[[r1 lg] a]|e] eqn:E1; cbn [rbind] in E; [|discriminate].
    destruct (receive_all r1 l) as [[[r2 lg2] ak]|e] eqn:E2; cbn [rbind] in E; [|discriminate]. injection E as <- <- <-. inversion F as [|? ? Fp F']; subst.
    change (packets_of ((p, t, dl) :: l)) with ([p] ++ packets_of l) in DT. rewrite app_assoc in DT.
    refine (IH (hist ++ [p]) r1 r2 lg2 ak _ _ _ F' DT E2).
    + exact (proj1 (receive_inv decode hash connection r p t dl r1 lg a RI E1)).
    + exact (receive_hinv hist r p t dl r1 lg a RI HI Fp E1).
    + apply (receive_stored hist r p t dl r1 lg a RI HI ST Fp); [|exact E1]. intros q Q T. apply DT; [| |exact T]; rewrite !in_app_iff; cbn; auto.
Qed.
End Run.

(** ** C38 *)

(** The frames that reach the decoder have increasing numbers. *)
Theorem C38_order :
  forall D (decode : D -> list Z -> option D) hash connection d l r log acks,
  receive_all decode hash connection (receiver_start hash d) l = Ok (r, log, acks) ->
  strictly_increasing (map fst log) /\ forall x, In x log -> 0 <= fst x < rc_next r.
Proof.
  intros D decode hash connection d l r log acks E. destruct (run_order decode hash connection l _ _ _ _ (start_inv hash d) E) as (_ & _ & _ & S & B). auto.
Qed.

(** The expected number never decreases. *)
Theorem C38_next :
  forall D (decode : D -> list Z -> option D) hash connection d l1 l2 r1 r2 log1 log2 acks1 acks2,
  receive_all decode hash connection (receiver_start hash d) l1 = Ok (r1, log1, acks1) ->
  receive_all decode hash connection r1 l2 = Ok (r2, log2, acks2) -> rc_next r1 <= rc_next r2 /\ (forall x, In x log2 -> rc_next r1 <= fst x).
Proof.
  intros D decode hash connection d l1 l2 r1 r2 log1 log2 acks1 acks2 E1 E2. destruct (run_order decode hash connection l1 _ _ _ _ (start_inv hash d) E1) as (I & _).
  destruct (run_order decode hash connection l2 _ _ _ _ I E2) as (_ & _ & N & _ & B). split; [exact N|]. intros x X. apply B in X. lia.
Qed.

(** A packet of an older frame has no effect: not even an acknowledgement. *)
Theorem C38_old_packet :
  forall D (decode : D -> list Z -> option D) hash connection r p time delay, pk_frame p < rc_next r ->
  receive decode hash connection r p time delay = Ok (r, [], None).
Proof. intros D decode hash connection r p time delay H. unfold receive. destruct (Z.ltb_spec (pk_frame p) (rc_next r)); [reflexivity|lia]. Qed.

(** The receiver never keeps fragments of more than one frame, and no decoder
    that it does not advertise (except the initial one). *)
Theorem C38_memory :
  forall D (decode : D -> list Z -> option D) hash connection d l r log acks,
  receive_all decode hash connection (receiver_start hash d) l = Ok (r, log, acks) ->
  (length (rc_frames r) <= 1)%nat /\ (length (rc_decoders r) <= 1 + length (rc_complete r))%nat /\
  (forall k f, In (k, f) (rc_frames r) -> k = rc_next r) /\
  (forall k e, In (k, e) (rc_decoders r) -> hash e = k /\ (k = hash d \/ In k (rc_complete r))).
Proof.
  intros D decode hash connection d l r log acks E. destruct (run_order decode hash connection l _ _ _ _ (start_inv hash d) E) as ([IF IH IK II IN IC] & EI & _). cbn in EI.
  split; [destruct IF as [->|(f & ->)]; cbn; lia|]. split.
  - rewrite <- (map_length fst). change (1 + length (rc_complete r))%nat with (length (rc_initial r :: rc_complete r)). apply NoDup_incl_length; [exact IK|]. intros k K. destruct (IN k K) as [->|J]; [left; reflexivity|right; exact J].
  - split.
    + intros k f K. apply (one_frame_keys _ _ IF). apply (in_map fst) in K. exact K.
    + intros k e K. split; [exact (IH k e K)|]. rewrite <- EI. apply IN. apply (in_map fst) in K. exact K.
Qed.

(** ** C39 *)

(** If different frames have different target states, every advertised state is
    stored, with a decoder that has this state. *)
Theorem C39_advertised :
  forall D (decode : D -> list Z -> option D) hash connection d l r log acks,
  Forall packet_fits (packets_of l) -> distinct_targets (packets_of l) ->
  receive_all decode hash connection (receiver_start hash d) l = Ok (r, log, acks) ->
  (forall s, In s (rc_complete r) -> exists e, lookup (rc_decoders r) s = Some e /\ hash e = s) /\
  (exists e, lookup (rc_decoders r) (hash d) = Some e /\ hash e = hash d) /\ NoDup (rc_complete r).
Proof.
  intros D decode hash connection d l r log acks F DT E.
  assert (stored (receiver_start hash d)) as ST by (split; [constructor|intros s []]).
  destruct (run_stored decode hash connection l [] _ _ _ _ (start_inv hash d) (start_hinv hash connection d) ST F DT E) as ([_ IH _ (II & _) _ _] & ND & S).
  destruct (run_order decode hash connection l _ _ _ _ (start_inv hash d) E) as (_ & EI & _). cbn in EI.
  assert (forall s, In s (map fst (rc_decoders r)) -> exists e, lookup (rc_decoders r) s = Some e /\ hash e = s) as X.
  { intros s I. destruct (lookup_some _ _ I) as (e & L). exists e. split; [exact L|]. apply IH, lookup_in, L. }
  split; [intros s I; apply X, S, I|]. split; [rewrite <- EI; apply X, II|exact ND].
Qed.

(** A stored state is used: a complete frame whose source is stored (or
    current) is decoded from a decoder in that state. *)
Theorem C39_restored :
  forall D (decode : D -> list Z -> option D) hash connection d l r log acks p time delay r' log' a e,
  receive_all decode hash connection (receiver_start hash d) l = Ok (r, log, acks) -> Forall packet_fits (packets_of l) -> packet_fits p ->
  receive decode hash connection r p time delay = Ok (r', log', a) -> rc_next r <= pk_frame p < rc_next r' -> lookup (rc_decoders r) (pk_source p) = Some e ->
  exists start frame, hash start = pk_source p /\ In (pk_frame p, frame) log' /\ decode start frame = Some (rc_player r') /\
    (hash (rc_player r') = pk_target p -> pk_target p <> hash d -> In (pk_target p) (rc_complete r') /\ exists e', lookup (rc_decoders r') (pk_target p) = Some e' /\ hash e' = pk_target p).
Proof.
  intros D decode hash connection d l r log acks p t dl r' log' a e E F Fp E1 NX LK.
  destruct (run_hinv decode hash connection l [] _ _ _ _ (start_inv hash d) (start_hinv hash connection d) F E) as (RI & HI). cbn [app] in HI.
  destruct (run_order decode hash connection l _ _ _ _ (start_inv hash d) E) as (_ & EI & _). cbn in EI.
  pose proof (receive_inv decode hash connection r p t dl r' log' a RI E1) as (RI' & EI' & _).
  rewrite (receive_spec decode hash connection r p t dl RI) in E1. destruct (Z.ltb_spec (pk_frame p) (rc_next r)) as [L|G].
  { injection E1 as <- <- <-. lia. }
  destruct (skip_to decode r p) as [[pl0 lg]|e0]; cbn [rbind] in E1; [|discriminate].
  pose proof (add_to_spec hash connection (packets_of l) r p HI RI Fp) as AD. destruct (add_to connection r p) as [f|e0]; cbn [of_packet rbind] in E1; [|discriminate].
  destruct AD as (A1 & AF & A2 & A3 & A4 & A5 & A6 & A7).
  destruct (complete f) eqn:CF; [|destruct (negb _); [discriminate|]; injection E1 as <- <- <-; cbn in NX; lia].
  destruct (apply_frame decode hash r pl0 f) as [[[[pl st] de] fr]|e0] eqn:AP; cbn [rbind] in E1; [|discriminate]. destruct (negb _); [discriminate|]. injection E1 as <- <- <-. cbn [rc_player rc_complete rc_decoders].
  pose proof (ri_hash _ _ RI) as IH. unfold apply_frame in AP. rewrite A5, LK in AP.
  set (start := if hash pl0 =? pk_source p then pl0 else e) in AP.
  assert (hash start = pk_source p) as HS by (unfold start; destruct (Z.eqb_spec (hash pl0) (pk_source p)); [assumption|exact (IH _ _ (lookup_in _ _ _ LK))]).
  destruct (if _ && _ then _ else _) as [[st0 de0]|e0]; cbn [rbind] in AP; [|discriminate]. unfold whole in AP. rewrite CF in AP. cbn [negb of_packet rbind] in AP.
  set (frame := concat (map pk_payload (fr_fragments f))) in *.
  destruct (enqueue_frame decode start frame) as [pl'|e0] eqn:EQ; cbn [rbind] in AP; [|discriminate].
  assert (frame <> []) as NE by (apply (filled_whole f A1 AF CF); destruct Fp as (_ & _ & _ & _ & X & _); lia).
  assert (decode start frame = Some pl') as DE.
  { unfold enqueue_frame in EQ. destruct frame; [congruence|]. destruct (decode start _); [|discriminate]. injection EQ as ->. reflexivity. }
  exists start, frame. split; [exact HS|]. rewrite A6 in AP.
  destruct ((hash pl' =? pk_target p) && negb (hash pl' =? rc_initial r)) eqn:B; injection AP as <- <- <- <-.
  - split; [apply in_or_app; right; unfold fed; destruct frame; [congruence|left; reflexivity]|]. split; [exact DE|]. intros HT _. rewrite <- HT. split; [apply in_or_app; right; left; reflexivity|].
    destruct (lookup_some (insert de0 (hash pl') pl') (hash pl')) as (e' & L'); [apply (proj1 (proj2 (insert_spec de0 (hash pl') pl'))); auto|].
    exists e'. split; [exact L'|]. apply (ri_hash _ _ RI'). apply lookup_in in L'. exact L'.
  - split; [apply in_or_app; right; unfold fed; destruct frame; [congruence|left; reflexivity]|]. split; [exact DE|]. intros HT NT. exfalso. rewrite EI in B. lia.
Qed.

(** Which states a packet removes from the list: only those before the source
    of the frame that it completes. *)
Theorem C39_kept :
  forall D (decode : D -> list Z -> option D) hash connection d l r log acks p time delay r' log' a,
  receive_all decode hash connection (receiver_start hash d) l = Ok (r, log, acks) -> Forall packet_fits (packets_of l) -> packet_fits p ->
  receive decode hash connection r p time delay = Ok (r', log', a) ->
  exists dropped kept new, rc_complete r = dropped ++ kept /\ rc_complete r' = kept ++ new /\
    (dropped <> [] -> rc_next r' = pk_frame p + 1 /\ exists k, kept = pk_source p :: k) /\
    (new = [] \/ (new = [pk_target p] /\ hash (rc_player r') = pk_target p)).
Proof.
  intros D decode hash connection d l r log acks p t dl r' log' a E F Fp E1.
  destruct (run_hinv decode hash connection l [] _ _ _ _ (start_inv hash d) (start_hinv hash connection d) F E) as (RI & HI). cbn [app] in HI.
  rewrite (receive_spec decode hash connection r p t dl RI) in E1. destruct (Z.ltb_spec (pk_frame p) (rc_next r)) as [L|G].
  { injection E1 as <- <- <-. exists [], (rc_complete r), []. rewrite app_nil_r. repeat split; auto; congruence. }
  destruct (skip_to decode r p) as [[pl0 lg]|e0]; cbn [rbind] in E1; [|discriminate].
  pose proof (add_to_spec hash connection (packets_of l) r p HI RI Fp) as AD. destruct (add_to connection r p) as [f|e0]; cbn [of_packet rbind] in E1; [|discriminate].
  destruct AD as (A1 & AF & A2 & A3 & A4 & A5 & A6 & A7).
  destruct (complete f) eqn:CF.
  - destruct (apply_frame decode hash r pl0 f) as [[[[pl st] de] fr]|e0] eqn:AP; cbn [rbind] in E1; [|discriminate]. destruct (negb _); [discriminate|]. injection E1 as <- <- <-. cbn.
    destruct (apply_spec decode hash connection r pl0 f pl st de fr RI AP) as (_ & _ & _ & _ & _ & _ & dropped & kept & new & H1 & H2 & H3 & H4 & H5 & H6).
    exists dropped, kept, new. split; [exact H1|]. split; [exact H2|]. split; [intros X; split; [reflexivity|]; rewrite <- A5; apply H5, X|].
    destruct new as [|s [|]]; [auto| |cbn in H4; lia]. right. destruct (H3 s (or_introl eq_refl)) as (X & Y). split; congruence.
  - destruct (negb _); [discriminate|]. injection E1 as <- <- <-. cbn. exists [], (rc_complete r), []. rewrite app_nil_r. repeat split; auto; congruence.
Qed.

(** Without the condition on the targets it is false: three frames from the
    initial state, the first and the third with the same target, then one from
    the target of the second. The decoder of the example is its fingerprint; a
    frame is [source; target], or [source; target] in two fragments. *)
Definition toy_decode (d : Z) (frame : list Z) : option Z :=
  match frame with
  | [s; t] => Some (if s =? d then t else 100 + t)
  | [s] => Some 99
  | _ => None
  end.
Definition toy_hash (d : Z) : Z := d.
Definition toy_packet (no s t : Z) : packet * Z * Z := (mkPacket true 7 s t no 0 1 0 [s; t], no, 0).
(** Does the receiver advertise a state that it cannot restore? *)
Definition lost_state (r : receiver Z) : bool := existsb (fun s => match lookup (rc_decoders r) s with Some _ => false | None => true end) (rc_complete r).

Theorem C39_repeated_refuted :
  exists r log acks, Forall packet_fits (packets_of [toy_packet 0 0 1; toy_packet 1 0 2; toy_packet 2 0 1; toy_packet 3 2 3]) /\
  receive_all toy_decode toy_hash 7 (receiver_start toy_hash 0) [toy_packet 0 0 1; toy_packet 1 0 2; toy_packet 2 0 1; toy_packet 3 2 3] = Ok (r, log, acks) /\
  rc_complete r = [2; 1; 3] /\ lookup (rc_decoders r) 1 = None.
Proof.
  eexists _, _, _. split; [repeat constructor; cbn; try lia; discriminate|]. split; [vm_compute; reflexivity|]. split; reflexivity.
Qed.

(** ** C40 *)

(** Everything that can stop the receiver. *)
Theorem C40_failures :
  forall D (decode : D -> list Z -> option D) hash connection d l r log acks p time delay e,
  receive_all decode hash connection (receiver_start hash d) l = Ok (r, log, acks) -> Forall packet_fits (packets_of l) -> packet_fits p ->
  receive decode hash connection r p time delay = Err e ->
  rc_next r <= pk_frame p /\
  match e with
  | RPacket e' => e' = PInvalid /\ (pk_connection p <> connection \/
      exists q, In q (packets_of l) /\ pk_frame q = pk_frame p /\ (pk_source q <> pk_source p \/ pk_target q <> pk_target p \/ pk_count q <> pk_count p))
  | RDecode => exists e frame, decode e frame = None
  | RPrune => pk_source p <> hash d /\ ~ In (pk_source p) (rc_complete r) /\ (forall e, lookup (rc_decoders r) (pk_source p) <> Some e) /\
      exists e, hash e = pk_source p /\ (e = rc_player r \/ exists frame, decode (rc_player r) frame = Some e)
  | RClock => time < rc_update r
  end.
Proof.
  intros D decode hash connection d l r log acks p t dl e E F Fp E1.
  destruct (run_hinv decode hash connection l [] _ _ _ _ (start_inv hash d) (start_hinv hash connection d) F E) as (RI & HI). cbn [app] in HI.
  destruct (run_order decode hash connection l _ _ _ _ (start_inv hash d) E) as (_ & EI & _). cbn in EI.
  rewrite (receive_spec decode hash connection r p t dl RI) in E1. destruct (Z.ltb_spec (pk_frame p) (rc_next r)) as [L|G]; [discriminate|]. split; [exact G|].
  assert (forall x fr e0, enqueue_frame decode x fr = Err e0 -> e0 = RDecode /\ exists y fr', decode y fr' = None) as ENQ.
  { intros x fr e0. unfold enqueue_frame. destruct fr as [|b fr]; [discriminate|]. destruct (decode x (b :: fr)) eqn:DX; [discriminate|]. intros X. injection X as <-. eauto. }
  assert (forall x fr y, enqueue_frame decode x fr = Ok y -> y = x \/ exists fr', decode x fr' = Some y) as ENQ'.
  { intros x fr y. unfold enqueue_frame. destruct fr as [|b fr]; [intros X; injection X as ->; auto|]. destruct (decode x (b :: fr)) eqn:DX; [|discriminate]. intros X. injection X as <-. eauto. }
  destruct (skip_to decode r p) as [[pl0 lg]|e0] eqn:SK; cbn [rbind] in E1.
  2:{ injection E1 as <-. unfold skip_to in SK. destruct (_ =? _); [discriminate|]. destruct (rc_frames r) as [|[k f] q]; [discriminate|].
      destruct (enqueue_frame decode (rc_player r) (partial_frame f)) as [|e1] eqn:EN; cbn [rbind] in SK; [discriminate|]. injection SK as <-. apply ENQ in EN. destruct EN as (-> & X). exact X. }
  assert (pl0 = rc_player r \/ exists fr, decode (rc_player r) fr = Some pl0) as PL.
  { unfold skip_to in SK. destruct (_ =? _); [injection SK as <- _; auto|]. destruct (rc_frames r) as [|[k f] q]; [injection SK as <- _; auto|].
    destruct (enqueue_frame decode (rc_player r) (partial_frame f)) as [x|e1] eqn:EN; cbn [rbind] in SK; [|discriminate]. injection SK as <- _. exact (ENQ' _ _ _ EN). }
  pose proof (add_to_spec hash connection (packets_of l) r p HI RI Fp) as AD. destruct (add_to connection r p) as [f|e0]; cbn [of_packet rbind] in E1.
  2:{ injection E1 as <-. exact AD. }
  destruct AD as (A1 & AF & A2 & A3 & A4 & A5 & A6 & A7).
  destruct (complete f) eqn:CF.
  - destruct (apply_frame decode hash r pl0 f) as [[[[pl st] de] fr]|e0] eqn:AP; cbn [rbind] in E1.
    + destruct (Z.leb_spec (rc_update r) t); cbn [negb] in E1; [discriminate|]. injection E1 as <-. lia.
    + injection E1 as <-. unfold apply_frame in AP. rewrite A5 in AP. set (start := if hash pl0 =? pk_source p then pl0 else _) in AP.
      destruct ((hash start =? pk_source p) && negb (pk_source p =? rc_initial r)) eqn:B.
      * pose proof (prune_spec decode hash (rc_complete r) (rc_decoders r) (pk_source p)) as P. destruct (prune _ _ _) as [[c0 d0]|e1]; cbn [rbind] in AP.
        -- unfold whole in AP. rewrite CF in AP. cbn [negb of_packet rbind] in AP. destruct (enqueue_frame decode start _) as [x|e1] eqn:EN; cbn [rbind] in AP; [destruct ((hash x =? _) && _); discriminate|].
           injection AP as <-. apply ENQ in EN. destruct EN as (-> & X). exact X.
        -- injection AP as <-. destruct P as (-> & P). rewrite <- EI. split; [lia|]. split; [exact P|].
           assert (forall x, lookup (rc_decoders r) (pk_source p) <> Some x) as NL.
           { intros x LX. apply lookup_in, (in_map fst) in LX. destruct (ri_known _ _ RI _ LX) as [X|X]; [cbn in X; lia|exact (P X)]. }
           split; [exact NL|]. exists start. split; [lia|]. unfold start. destruct (hash pl0 =? pk_source p); [exact PL|]. destruct (lookup (rc_decoders r) (pk_source p)) as [x|] eqn:LX; [exfalso; exact (NL x eq_refl)|exact PL].
      * cbn [rbind] in AP. unfold whole in AP. rewrite CF in AP. cbn [negb of_packet rbind] in AP. destruct (enqueue_frame decode start _) as [x|e1] eqn:EN; cbn [rbind] in AP; [destruct ((hash x =? _) && _); discriminate|].
        injection AP as <-. apply ENQ in EN. destruct EN as (-> & X). exact X.
  - destruct (Z.leb_spec (rc_update r) t); cbn [negb] in E1; [discriminate|]. injection E1 as <-. lia.
Qed.

(** Well-formed packets do stop it: a packet of another connection; *)
Theorem C40_connection_refuted :
  exists p, packet_fits p /\ receive toy_decode toy_hash 7 (receiver_start toy_hash 0) p 0 0 = Err (RPacket PInvalid).
Proof. exists (mkPacket true 8 0 1 0 0 1 0 [0; 1]). split; [repeat split; cbn; try lia; discriminate|]. vm_compute. reflexivity. Qed.

(** a frame that names as its source the state after a frame whose target was
    not reached; *)
Theorem C40_source_refuted :
  exists l, Forall packet_fits (packets_of l) /\ receive_all toy_decode toy_hash 7 (receiver_start toy_hash 0) l = Err RPrune.
Proof.
  exists [(mkPacket true 7 0 9 0 0 1 0 [0; 1], 0, 0); (mkPacket true 7 1 2 1 0 1 0 [1; 2], 1, 0)]. split; [repeat constructor; cbn; try lia; discriminate|]. vm_compute. reflexivity.
Qed.

(** and even a correct sender: if the first fragment of a frame alone brings the
    decoder into the target state, the frame after it (from that state) makes the
    assertion fail when the second fragment is lost. Each frame below leads from
    its source to its target. *)
Definition prefix_decode (d : Z) (frame : list Z) : option Z :=
  match frame with
  | s :: t :: _ => Some (if s =? d then t else 100 + t)
  | _ => None
  end.
Theorem C40_lost_fragment_refuted :
  let l := [(mkPacket true 7 0 1 0 0 1 0 [0; 1], 0, 0); (mkPacket true 7 1 2 1 0 2 0 [1; 2], 1, 0); (mkPacket true 7 2 3 2 0 1 0 [2; 3], 2, 0)] in
  Forall packet_fits (packets_of l) /\
  prefix_decode 0 [0; 1] = Some 1 /\ prefix_decode 1 ([1; 2] ++ [5]) = Some 2 /\ prefix_decode 2 [2; 3] = Some 3 /\
  receive_all prefix_decode toy_hash 7 (receiver_start toy_hash 0) l = Err RPrune.
Proof. split; [repeat constructor; cbn; try lia; discriminate|]. vm_compute. auto. Qed.

(** ** Examples *)

(** Frame 0; frame 1 in two fragments, the second lost; frame 2 starts again
    from the target of frame 0. *)
Definition example_packets : list (packet * Z * Z) :=
  [toy_packet 0 0 1; (mkPacket true 7 1 2 1 0 2 0 [1], 1, 0); (mkPacket true 7 1 3 2 0 1 0 [1; 3], 2, 0)].
Example C38_example :
  Forall packet_fits (packets_of example_packets) /\ distinct_targets (packets_of example_packets) /\
  exists r, receive_all toy_decode toy_hash 7 (receiver_start toy_hash 0) example_packets =
    Ok (r, [(0, [0; 1]); (1, [1]); (2, [1; 3])], [mkAck 7 0 0 0 1 [1]; mkAck 7 1 0 0 1 [1]; mkAck 7 2 0 0 3 [1; 3]]) /\ rc_next r = 3 /\ lost_state r = false.
Proof.
  split; [repeat constructor; cbn; try lia; discriminate|]. split.
  - intros p q [<-|[<-|[<-|[]]]] [<-|[<-|[<-|[]]]]; cbn; congruence.
  - eexists. split; [vm_compute; reflexivity|]. split; reflexivity.
Qed.

Print Assumptions C38_order.
Print Assumptions C38_next.
Print Assumptions C38_old_packet.
Print Assumptions C38_memory.
Print Assumptions C39_advertised.
Print Assumptions C39_restored.
Print Assumptions C39_kept.
Print Assumptions C39_repeated_refuted.
Print Assumptions C40_failures.
Print Assumptions C40_connection_refuted.
Print Assumptions C40_source_refuted.
Print Assumptions C40_lost_fragment_refuted.
