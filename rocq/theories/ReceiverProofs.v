(** Lemmas about the receiver. *)
From Verif Require Import Base PacketModel ReceiverModel.

Lemma lookup_in {A} (l : list (Z * A)) k a : lookup l k = Some a -> In (k, a) l.
Proof. induction l as [|[k' b] l IH]; cbn; [discriminate|]. destruct (Z.eqb_spec k' k) as [->|]; [intros E; injection E as ->; left; reflexivity|]. intros E. right. apply IH, E. Qed.
Lemma lookup_none {A} (l : list (Z * A)) k : lookup l k = None <-> ~ In k (map fst l).
Proof.
  induction l as [|[k' b] l IH]; cbn; [split; auto|]. destruct (Z.eqb_spec k' k) as [->|N].
  - split; [discriminate|]. intros H. exfalso. apply H. left. reflexivity.
  - rewrite IH. split; [intros H [E|I]; [exact (N E)|exact (H I)]|tauto].
Qed.
Lemma lookup_some {A} (l : list (Z * A)) k : In k (map fst l) -> exists a, lookup l k = Some a.
Proof. intros I. destruct (lookup l k) as [a|] eqn:E; [eauto|]. exfalso. exact (proj1 (lookup_none l k) E I). Qed.
Lemma erase_in {A} (l : list (Z * A)) k x : In x (erase l k) <-> In x l /\ fst x <> k.
Proof.
  induction l as [|[k' b] l IH]; cbn; [tauto|]. destruct (Z.eqb_spec k' k) as [->|N].
  - rewrite IH. split; [tauto|]. intros ([<-|I] & H); [exfalso; apply H; reflexivity|tauto].
  - cbn. rewrite IH. split; [intros [<-|(I & H)]; [split; [auto|exact N]|tauto]|tauto].
Qed.
Lemma erase_keys {A} (l : list (Z * A)) k j : In j (map fst (erase l k)) <-> In j (map fst l) /\ j <> k.
Proof.
  rewrite !in_map_iff. split.
  - intros (x & <- & I). apply erase_in in I. destruct I. split; [exists x; auto|assumption].
  - intros ((x & <- & I) & N). exists x. split; [reflexivity|]. apply erase_in. auto.
Qed.
Lemma erase_lookup {A} (l : list (Z * A)) k j : j <> k -> lookup (erase l k) j = lookup l j.
Proof.
  intros N. induction l as [|[k' b] l IH]; cbn; [reflexivity|]. destruct (Z.eqb_spec k' k) as [->|M].
  - destruct (Z.eqb_spec k j); [congruence|exact IH].
  - cbn. rewrite IH. reflexivity.
Qed.
Lemma erase_nodup {A} (l : list (Z * A)) k : NoDup (map fst l) -> NoDup (map fst (erase l k)).
Proof.
  induction l as [|[k' b] l IH]; cbn; intros H; [constructor|]. inversion H as [|? ? N H']; subst. destruct (Z.eqb_spec k' k); [auto|]. cbn. constructor; [|auto].
  intros I. apply erase_keys in I. tauto.
Qed.

Section Receiver.
Context {D : Type}.
Variable decode : D -> list Z -> option D.
Variable hash : D -> Z.
Variable connection : Z.
Notation receive := (receive decode hash connection).
Notation receive_all := (receive_all decode hash connection).

(** Loops over frame numbers that are not in the table do nothing. *)
Lemma display_none frames (d : D) : forall n i, (forall k, In k (map fst frames) -> k < i) -> display_previous decode n i frames d = Ok (frames, d, []).
Proof.
  induction n as [|n IH]; intros i H; [reflexivity|]. cbn [display_previous].
  destruct (lookup frames i) as [f|] eqn:E; [|apply IH; intros k K; apply H in K; lia].
  exfalso. apply lookup_in, (in_map fst) in E. apply H in E. cbn in E. lia.
Qed.

(** The table holds at most the frame that is expected next. *)
Definition one_frame (next : Z) (frames : list (Z * fragmented)) : Prop := frames = [] \/ exists f, frames = [(next, f)].

Lemma one_frame_keys next frames : one_frame next frames -> forall k, In k (map fst frames) -> k = next.
Proof. intros [->|(f & ->)] k; cbn; intros I; [destruct I|destruct I as [<-|[]]; reflexivity]. Qed.

Lemma display_one n next frames (d : D) : one_frame next frames ->
  display_previous decode (S n) next frames d =
  match frames with
  | [] => Ok ([], d, [])
  | (_, f) :: _ => let! d' := enqueue_frame decode d (partial_frame f) in Ok ([], d', fed next (partial_frame f))
  end.
Proof.
  intros [->|(f & ->)]; cbn [display_previous lookup].
  - apply display_none. intros k [].
  - rewrite Z.eqb_refl. destruct (enqueue_frame decode d (partial_frame f)) as [d'|]; [|reflexivity]. cbn [rbind erase]. rewrite Z.eqb_refl, display_none by (intros k []). cbn [rbind]. rewrite app_nil_r. reflexivity.
Qed.

(** The invariant. *)
Record rinv (r : receiver D) : Prop := {
  ri_frames : one_frame (rc_next r) (rc_frames r);
  ri_hash : forall k d, In (k, d) (rc_decoders r) -> hash d = k;
  ri_keys : NoDup (map fst (rc_decoders r));
  ri_initial : In (rc_initial r) (map fst (rc_decoders r)) /\ ~ In (rc_initial r) (rc_complete r);
  ri_known : forall k, In k (map fst (rc_decoders r)) -> k = rc_initial r \/ In k (rc_complete r);
  ri_current : rc_current r = hash (rc_player r)
}.

Lemma start_inv d : rinv (receiver_start hash d).
Proof.
  split; cbn.
  - left. reflexivity.
  - intros k e [E|[]]. injection E as <- <-. reflexivity.
  - repeat constructor. intros [].
  - auto.
  - intros k [<-|[]]. auto.
  - reflexivity.
Qed.

(** Pruning drops the states before the first occurrence of [source]. *)
Lemma prune_spec : forall complete (decoders : list (Z * D)) source,
  match prune complete decoders source with
  | Ok (c, d) => exists dropped, complete = dropped ++ c /\ ~ In source dropped /\ (exists r, c = source :: r) /\
      (forall x, In x d <-> In x decoders /\ ~ In (fst x) dropped) /\ (NoDup (map fst decoders) -> NoDup (map fst d)) /\
      (forall k, ~ In k dropped -> lookup d k = lookup decoders k)
  | Err e => e = RPrune /\ ~ In source complete
  end.
Proof.
  induction complete as [|s c IH]; intros decoders source; cbn [prune].
  - split; [reflexivity|intros []].
  - destruct (Z.eqb_spec s source) as [->|N]; cbn [negb].
    + exists []. split; [reflexivity|]. split; [intros []|]. split; [eauto|]. split; [cbn; tauto|]. split; [auto|reflexivity].
    + specialize (IH (erase decoders s) source). destruct (prune c (erase decoders s) source) as [[c' d']|e].
      * destruct IH as (dr & -> & NI & (r & ->) & H & ND & LK). exists (s :: dr). split; [reflexivity|]. split; [intros [E|I]; [exact (N E)|exact (NI I)]|]. split; [eauto|]. split; [|split].
        -- intros x. rewrite H, erase_in. cbn. split; [intros ((A & B) & C); split; [exact A|intros [E|I]; [exact (B (eq_sym E))|exact (C I)]]|intros (A & B); split; [split; [exact A|intros E; apply B; left; symmetry; exact E]|tauto]].
        -- intros K. apply ND, erase_nodup, K.
        -- intros k K. rewrite LK by (intros I; apply K; right; exact I). apply erase_lookup. intros ->. apply K. left. reflexivity.
      * destruct IH as (-> & NI). split; [reflexivity|]. intros [E|I]; [exact (N E)|exact (NI I)].
Qed.

Lemma insert_spec (l : list (Z * D)) k d :
  (forall x, In x (insert l k d) -> In x l \/ x = (k, d)) /\ (forall j, In j (map fst (insert l k d)) <-> In j (map fst l) \/ j = k) /\ (NoDup (map fst l) -> NoDup (map fst (insert l k d))) /\
  (forall j e, lookup l j = Some e -> lookup (insert l k d) j = Some e).
Proof.
  unfold insert. destruct (lookup l k) as [e|] eqn:E.
  - split; [auto|]. split; [|split; auto]. intros j. split; [auto|]. intros [I| ->]; [exact I|]. apply lookup_in, (in_map fst) in E. exact E.
  - split; [intros x [<-|I]; auto|]. split; [|split].
    + intros j. cbn. split; [intros [->|I]; auto|intros [I| ->]; auto].
    + intros ND. cbn. constructor; [|exact ND]. apply lookup_none, E.
    + intros j e J. cbn. destruct (Z.eqb_spec k j) as [->|]; [congruence|exact J].
Qed.

(** ** One step *)

Lemma set_frame_one p f f' : map (fun x => if fst x =? pk_frame p then (fst x, f') else x) [(pk_frame p, f)] = [(pk_frame p, f' : fragmented)].
Proof. cbn. rewrite Z.eqb_refl. reflexivity. Qed.

(** The frame in the table after the packet was added. *)
Definition add_to (r : receiver D) (p : packet) : res packet_error fragmented :=
  match rc_frames r with
  | (_, f) :: _ => if pk_frame p =? rc_next r then add_packet f p else incoming connection p
  | [] => incoming connection p
  end.
(** The decoder and the log before the packet's frame is considered. *)
Definition skip_to (r : receiver D) (p : packet) : res receiver_error (D * list (Z * list Z)) :=
  if pk_frame p =? rc_next r then Ok (rc_player r, [])
  else match rc_frames r with
       | [] => Ok (rc_player r, [])
       | (_, f) :: _ => let! d := enqueue_frame decode (rc_player r) (partial_frame f) in Ok (d, fed (rc_next r) (partial_frame f))
       end.
(** What a complete frame does, from the decoder [player]. *)
Definition apply_frame (r : receiver D) (player : D) (f : fragmented) : res receiver_error (D * list Z * list (Z * D) * list Z) :=
  let start := if hash player =? fr_source f then player else match lookup (rc_decoders r) (fr_source f) with Some d => d | None => player end in
  let! (states, decoders) :=
    if (hash start =? fr_source f) && negb (fr_source f =? rc_initial r) then prune (rc_complete r) (rc_decoders r) (fr_source f) else Ok (rc_complete r, rc_decoders r) in
  let! frame := of_packet (whole f) in
  let! player' := enqueue_frame decode start frame in
  if (hash player' =? fr_target f) && negb (hash player' =? rc_initial r) then Ok (player', states ++ [hash player'], insert decoders (hash player') player', frame)
  else Ok (player', states, decoders, frame).

Lemma receive_spec r p time delay : rinv r ->
  receive r p time delay =
  if pk_frame p <? rc_next r then Ok (r, [], None)
  else
    let! (player, log) := skip_to r p in
    let! f := of_packet (add_to r p) in
    if complete f then
      let! (player', states, decoders, frame) := apply_frame r player f in
      if negb (rc_update r <=? time) then Err RClock
      else Ok (mkReceiver [] (pk_frame p + 1) time (hash player') (rc_initial r) states decoders player', log ++ fed (pk_frame p) frame,
               Some (mkAck connection (pk_frame p) (pk_fragment p) delay (hash player') states))
    else
      if negb (rc_update r <=? time) then Err RClock
      else Ok (mkReceiver [(pk_frame p, f)] (pk_frame p) time (hash player) (rc_initial r) (rc_complete r) (rc_decoders r) player, log,
               Some (mkAck connection (pk_frame p) (pk_fragment p) delay (hash player) (rc_complete r))).
Proof.
  intros I. unfold ReceiverModel.receive. destruct (Z.ltb_spec (pk_frame p) (rc_next r)) as [L|G]; [reflexivity|].
  destruct r as [frames next update current initial states decoders player]. pose proof I as [IF IH IK II IN IC].
  cbn [rc_frames rc_next rc_update rc_current rc_initial rc_complete rc_decoders rc_player] in *. subst current.
  (* the common end, for a decoder [d], the packet's frame [f] and a log *)
  assert (forall (d : D) (f : fragmented) (log : list (Z * list Z)),
    (let! (frames0, next0, current, states0, decoders0, player0, log0) :=
       match lookup [(pk_frame p, f)] (pk_frame p) with
       | Some f0 =>
           if complete f0 then
             let source := fr_source f0 in
             let (player1, current) :=
               if negb (hash d =? source) then match lookup decoders source with Some d0 => (d0, source) | None => (d, hash d) end else (d, hash d) in
             let! (states1, decoders1) := if (current =? source) && negb (source =? initial) then prune states decoders source else Ok (states, decoders) in
             let! frame := of_packet (whole f0) in
             let! player2 := enqueue_frame decode player1 frame in
             let current0 := hash player2 in
             let (decoders2, states2) :=
               if (current0 =? fr_target f0) && negb (current0 =? initial) then (insert decoders1 current0 player2, states1 ++ [current0]) else (decoders1, states1) in
             Ok (erase [(pk_frame p, f)] (pk_frame p), pk_frame p + 1, current0, states2, decoders2, player2, log ++ fed (pk_frame p) frame)
           else Ok ([(pk_frame p, f)], pk_frame p, hash d, states, decoders, d, log)
       | None => Ok ([(pk_frame p, f)], pk_frame p, hash d, states, decoders, d, log)
       end in
     if negb (update <=? time) then Err RClock
     else Ok (mkReceiver frames0 next0 time current initial states0 decoders0 player0, log0, Some (mkAck connection (pk_frame p) (pk_fragment p) delay current states0))) =
    if complete f then
      let! (player', states', decoders', frame) := apply_frame (mkReceiver frames next update (hash player) initial states decoders player) d f in
      if negb (update <=? time) then Err RClock
      else Ok (mkReceiver [] (pk_frame p + 1) time (hash player') initial states' decoders' player', log ++ fed (pk_frame p) frame,
               Some (mkAck connection (pk_frame p) (pk_fragment p) delay (hash player') states'))
    else
      if negb (update <=? time) then Err RClock
      else Ok (mkReceiver [(pk_frame p, f)] (pk_frame p) time (hash d) initial states decoders d, log,
               Some (mkAck connection (pk_frame p) (pk_fragment p) delay (hash d) states))) as END.
  { intros d f log. cbn [lookup]. rewrite Z.eqb_refl. destruct (complete f); [|reflexivity].
    unfold apply_frame. cbn [rc_frames rc_next rc_update rc_current rc_initial rc_complete rc_decoders rc_player]. cbv zeta.
    assert ((if negb (hash d =? fr_source f) then match lookup decoders (fr_source f) with Some d0 => (d0, fr_source f) | None => (d, hash d) end else (d, hash d)) =
      (let start := if hash d =? fr_source f then d else match lookup decoders (fr_source f) with Some d0 => d0 | None => d end in (start, hash start))) as ->.
    { cbv zeta. destruct (hash d =? fr_source f); cbn [negb]; [reflexivity|]. destruct (lookup decoders (fr_source f)) as [d0|] eqn:E; [|reflexivity]. rewrite (IH _ _ (lookup_in _ _ _ E)). reflexivity. }
    cbv zeta. set (start := if hash d =? fr_source f then d else _). cbn [rbind].
    destruct ((hash start =? fr_source f) && negb (fr_source f =? initial)).
    1: destruct (prune states decoders (fr_source f)) as [[st de]|e]; cbn [rbind]; [|reflexivity].
    2: cbn [rbind].
    all: destruct (of_packet (whole f)) as [fr|e]; cbn [rbind]; [|reflexivity]; destruct (enqueue_frame decode start fr) as [pl|e]; cbn [rbind]; [|reflexivity].
    all: cbn [erase]; rewrite Z.eqb_refl; destruct ((hash pl =? fr_target f) && negb (hash pl =? initial)); reflexivity. }
  unfold skip_to, add_to. cbn [rc_frames rc_next rc_update rc_current rc_initial rc_complete rc_decoders rc_player].
  rewrite Z.gtb_ltb. destruct (Z.ltb_spec next (pk_frame p)) as [L|L].
  - destruct (Z.eqb_spec (pk_frame p) next) as [X|_]; [lia|].
    assert (exists n, Z.to_nat (pk_frame p - next) = S n) as (n & ->) by (exists (Z.to_nat (pk_frame p - next - 1)); lia).
    rewrite (display_one n next frames player IF). destruct IF as [->|(f & ->)].
    + cbn [rbind]. change (lookup (@nil (Z * fragmented)) (pk_frame p)) with (@None fragmented). cbn [rbind]. destruct (of_packet (incoming connection p)) as [f|e]; cbn [rbind]; [|reflexivity]. apply END.
    + destruct (enqueue_frame decode player (partial_frame f)) as [d|e]; cbn [rbind]; [|reflexivity]. change (lookup (@nil (Z * fragmented)) (pk_frame p)) with (@None fragmented). cbn [rbind].
      destruct (of_packet (incoming connection p)) as [g|e]; cbn [rbind]; [|reflexivity]. apply END.
  - assert (pk_frame p = next) as E by lia. subst next. rewrite Z.eqb_refl. cbn [rbind]. destruct IF as [->|(f & ->)].
    + change (lookup (@nil (Z * fragmented)) (pk_frame p)) with (@None fragmented). cbn [rbind]. destruct (of_packet (incoming connection p)) as [f|e]; cbn [rbind]; [|reflexivity]. apply END.
    + assert (lookup [(pk_frame p, f)] (pk_frame p) = Some f) as -> by (cbn; rewrite Z.eqb_refl; reflexivity). cbn [rbind]. destruct (of_packet (add_packet f p)) as [g|e]; cbn [rbind]; [|reflexivity]. rewrite set_frame_one. apply END.
Qed.

(** What applying a frame does to the stored states. *)
Lemma apply_spec r player f player' states decoders frame : rinv r -> apply_frame r player f = Ok (player', states, decoders, frame) ->
  (forall k d, In (k, d) decoders -> hash d = k) /\ NoDup (map fst decoders) /\ In (rc_initial r) (map fst decoders) /\ ~ In (rc_initial r) states /\
  (forall k, In k (map fst decoders) -> k = rc_initial r \/ In k states) /\ whole f = Ok frame /\
  exists dropped kept new, rc_complete r = dropped ++ kept /\ states = kept ++ new /\ (forall s, In s new -> s = hash player' /\ s = fr_target f) /\ (length new <= 1)%nat /\
    (dropped <> [] -> exists k, kept = fr_source f :: k) /\
    (forall k, In k (map fst decoders) <-> (In k (map fst (rc_decoders r)) /\ ~ In k dropped) \/ In k new).
Proof.
  intros [IF IH IK (II & IJ) IN IC]. unfold apply_frame. set (start := if hash player =? fr_source f then player else _).
  set (m := if (hash start =? fr_source f) && negb (fr_source f =? rc_initial r) then _ else _).
  assert (match m with
    | Ok (c, d) => exists dropped, rc_complete r = dropped ++ c /\ (dropped <> [] -> exists k, c = fr_source f :: k) /\ (forall x, In x d <-> In x (rc_decoders r) /\ ~ In (fst x) dropped) /\ NoDup (map fst d)
    | Err _ => True end) as M.
  { unfold m. destruct (_ && _).
    - pose proof (prune_spec (rc_complete r) (rc_decoders r) (fr_source f)) as P. destruct (prune _ _ _) as [[c d]|e]; [|exact I].
      destruct P as (dr & A & B & C & E & F & G). exists dr. auto.
    - exists []. split; [reflexivity|]. split; [congruence|]. split; [cbn; tauto|exact IK]. }
  destruct m as [[st de]|e]; cbn [rbind]; [|discriminate]. destruct M as (dropped & M1 & M2 & M3 & M4).
  assert (forall k, In k (map fst de) <-> In k (map fst (rc_decoders r)) /\ ~ In k dropped) as MK.
  { intros k. rewrite !in_map_iff. split.
    - intros (x & <- & X). apply M3 in X. destruct X. split; [exists x; auto|assumption].
    - intros ((x & <- & X) & Y). exists x. split; [reflexivity|]. apply M3. auto. }
  unfold of_packet. destruct (whole f) as [fr|e]; cbn [rbind]; [|discriminate]. destruct (enqueue_frame decode start fr) as [pl|e]; cbn [rbind]; [|discriminate].
  assert (forall x, In x dropped -> In x (rc_complete r)) as DC by (intros x X; rewrite M1; apply in_or_app; auto).
  assert (forall x, In x st -> In x (rc_complete r)) as SC by (intros x X; rewrite M1; apply in_or_app; auto).
  destruct ((hash pl =? fr_target f) && negb (hash pl =? rc_initial r)) eqn:E; intros X; injection X as <- <- <- <-.
  - destruct (insert_spec de (hash pl) pl) as (S1 & S2 & S3 & _). split; [|split; [|split; [|split; [|split; [|split]]]]].
    + intros k d J. apply S1 in J. destruct J as [J|J]; [apply M3 in J; apply IH, J|]. injection J as -> ->. reflexivity.
    + apply S3, M4.
    + apply S2. left. apply MK. split; [exact II|]. intros J. apply IJ, DC, J.
    + intros J. apply in_app_or in J. destruct J as [J|[J|[]]]; [apply IJ, SC, J|]. lia.
    + intros k J. apply S2 in J. destruct J as [J| ->]; [|right; apply in_or_app; right; left; reflexivity]. apply MK in J. destruct J as (J & ND). destruct (IN k J) as [->|K]; [auto|]. right.
      apply in_or_app. left. rewrite M1 in K. apply in_app_or in K. destruct K; [contradiction|assumption].
    + reflexivity.
    + exists dropped, st, [hash pl]. split; [exact M1|]. split; [reflexivity|]. split; [intros s [<-|[]]; split; [reflexivity|lia]|]. split; [cbn; lia|]. split; [exact M2|].
      intros k. rewrite S2, MK. cbn. split; intros [A|B]; auto. destruct B as [->|[]]. auto.
  - split; [|split; [|split; [|split; [|split; [|split]]]]].
    + intros k d J. apply M3 in J. apply IH, J.
    + exact M4.
    + apply MK. split; [exact II|]. intros J. apply IJ, DC, J.
    + intros J. apply IJ, SC, J.
    + intros k J. apply MK in J. destruct J as (J & ND). destruct (IN k J) as [->|K]; [auto|]. right. rewrite M1 in K. apply in_app_or in K. destruct K; [contradiction|assumption].
    + reflexivity.
    + exists dropped, st, []. split; [exact M1|]. split; [rewrite app_nil_r; reflexivity|]. split; [intros s []|]. split; [cbn; lia|]. split; [exact M2|]. intros k. rewrite MK. cbn. tauto.
Qed.

Lemma fed_number no frame x : In x (fed no frame) -> fst x = no.
Proof. destruct frame; cbn; [tauto|]. intros [<-|[]]. reflexivity. Qed.

(** One step keeps the invariant; what it feeds to the decoder. *)
Lemma receive_inv r p time delay r' log a : rinv r -> receive r p time delay = Ok (r', log, a) ->
  rinv r' /\ rc_initial r' = rc_initial r /\ rc_next r <= rc_next r' /\
  (forall x, In x log -> rc_next r <= fst x < rc_next r' \/ (fst x = rc_next r /\ rc_next r < rc_next r')) /\
  (exists l1 l2, log = l1 ++ l2 /\ (length l1 <= 1)%nat /\ (length l2 <= 1)%nat /\ (forall x y, In x l1 -> In y l2 -> fst x < fst y)).
Proof.
  intros I E. rewrite (receive_spec r p time delay I) in E. destruct (Z.ltb_spec (pk_frame p) (rc_next r)) as [L|G].
  - injection E as <- <- <-. split; [exact I|]. split; [reflexivity|]. split; [lia|]. split; [intros x []|]. exists [], []. repeat split; cbn; auto; intros; contradiction.
  - assert (forall no fr, (length (fed no fr) <= 1)%nat) as LF by (intros no [|]; cbn; lia).
    destruct (skip_to r p) as [[d lg]|e] eqn:SK; cbn [rbind] in E; [|discriminate].
    assert ((length lg <= 1)%nat /\ (forall x, In x lg -> fst x = rc_next r /\ rc_next r < pk_frame p)) as (SL & SN).
    { unfold skip_to in SK. destruct (Z.eqb_spec (pk_frame p) (rc_next r)); [injection SK as <- <-; split; [cbn; lia|intros x []]|].
      destruct (rc_frames r) as [|[k f] q]; [injection SK as <- <-; split; [cbn; lia|intros x []]|].
      destruct (enqueue_frame decode (rc_player r) (partial_frame f)); cbn [rbind] in SK; [|discriminate]. injection SK as <- <-. split; [apply LF|]. intros x X. apply fed_number in X. lia. }
    destruct (of_packet (add_to r p)) as [f|e]; cbn [rbind] in E; [|discriminate].
    destruct (complete f).
    + destruct (apply_frame r d f) as [[[[pl st] de] fr]|e] eqn:AP; cbn [rbind] in E; [|discriminate]. destruct (negb _); [discriminate|]. injection E as <- <- <-.
      destruct (apply_spec r d f pl st de fr I AP) as (A1 & A2 & A3 & A4 & A5 & _ & _). split; [|split; [|split; [|split]]].
      * split; cbn; auto. left. reflexivity.
      * reflexivity.
      * cbn. lia.
      * cbn. intros x X. apply in_app_or in X. destruct X as [X|X]; [apply SN in X; lia|apply fed_number in X; lia].
      * exists lg, (fed (pk_frame p) fr). split; [reflexivity|]. split; [exact SL|]. split; [apply LF|]. intros x y X Y. apply SN in X. apply fed_number in Y. lia.
    + destruct (negb _); [discriminate|]. injection E as <- <- <-. destruct I as [IF IH IK II IN IC]. split; [|split; [|split; [|split]]].
      * split; cbn; auto. right. eauto.
      * reflexivity.
      * cbn. lia.
      * cbn. intros x X. apply SN in X. lia.
      * exists lg, []. rewrite app_nil_r. split; [reflexivity|]. split; [exact SL|]. split; [cbn; lia|]. intros x y _ [].
Qed.
End Receiver.
