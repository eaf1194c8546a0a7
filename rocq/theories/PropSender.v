(** Properties of the sender (C41, C43). *)
From Verif Require Import Base ChunkProofs PacketModel PropPacket ReceiverModel ReceiverProofs PropReceiver SenderModel SenderProofs.

(** ** Sequence numbers *)

Section Sequence.
Context {E : Type}.
Variable hash : E -> Z.
Variable connection : Z.
Variable conventional : bool.
Notation sender_step := (sender_step hash connection conventional).
Notation sender_run := (sender_run hash connection conventional).

(** Frames fit into the memory, acknowledgements into a datagram. *)
Definition event_fits (v : sender_event E) : Prop :=
  match v with
  | Start _ _ => True
  | Finish outs _ => Forall (fun o => zlen (snd o) < 2 ^ 63) outs
  | Acknowledge a => ack_fits a
  end.

(** [sent]: everything so far. *)
Record qinv (s : sender E) (sent : list packet) : Prop := {
  qi_frame : sn_frame s = zlen (sn_cumulative s);
  qi_total : zlen sent = last (sn_cumulative s) 0;
  qi_seq : forall i p, nth_error sent i = Some p ->
    0 <= pk_frame p < zlen (sn_cumulative s) /\ 0 <= pk_fragment p /\ ack_seq (sn_cumulative s) (pk_frame p) (pk_fragment p) = Ok (Z.of_nat i);
  qi_bound : zlen sent <= 65535 * zlen (sn_cumulative s);
  qi_cum : Forall (fun c => 0 <= c <= zlen sent) (sn_cumulative s);
  qi_last : sn_last s = MAX64 \/ 0 <= sn_last s < zlen sent + 65536;
  qi_delay : 0 <= sn_delay s < 2 ^ 32;
  qi_none : sn_last s = MAX64 -> sn_delay s = MAX32
}.

Lemma qinv_start e now : qinv (sender_start hash e now) [].
Proof. split; cbn; auto; try (unfold MAX32; lia). intros [|i] p X; discriminate. Qed.

Lemma seq_grows cum x p i : 0 <= pk_frame p < zlen cum -> ack_seq cum (pk_frame p) (pk_fragment p) = Ok i -> ack_seq (cum ++ [x]) (pk_frame p) (pk_fragment p) = Ok i.
Proof.
  unfold ack_seq. rewrite Z.gtb_ltb. intros H. destruct (Z.ltb_spec 0 (pk_frame p)); [|auto].
  rewrite nth_error_app1 by (unfold zlen in H; lia). auto.
Qed.

Lemma finish_seq s outs time s' l sent : qinv s sent -> Forall (fun o => zlen (snd o) < 2 ^ 63) outs -> zlen (sn_cumulative s) + 1 < 2 ^ 32 ->
  finish hash connection conventional s outs time = Ok (s', l) -> qinv s' (sent ++ l) /\ zlen (sn_cumulative s) <= zlen (sn_cumulative s') <= zlen (sn_cumulative s) + 1 /\ sn_last s' = sn_last s.
Proof.
  intros Q O B. unfold finish. destruct (sn_job s) as [e|].
  2:{ intros X. injection X as <- <-. rewrite app_nil_r. split; [exact Q|]. split; [lia|reflexivity]. }
  destruct (if sn_delay s =? MAX32 then _ else _) as [size|x]; cbn [rbind]; [|discriminate].
  set (best := if conventional then hd_error outs else _).
  assert (forall o, best = Some o -> In o outs) as BI.
  { intros o. unfold best. destruct conventional; [destruct outs; [discriminate|intros X; injection X as ->; left; reflexivity]|].
    destruct (choose outs size None MAX64) as [o'|] eqn:CH; [intros X; injection X as ->; apply choose_in in CH; destruct CH; [assumption|discriminate]|].
    destruct (_ <? _); [discriminate|]. intros X. apply in_rev. destruct (rev outs); [discriminate|]. injection X as ->. left. reflexivity. }
  pose proof Q as [Q1 Q2 Q3 Q4 Q5 Q6 Q7 Q8]. destruct best as [[e' frame]|].
  2:{ intros X. injection X as <- <-. rewrite app_nil_r. split; [split; cbn; auto|]. split; [cbn; lia|reflexivity]. }
  specialize (BI _ eq_refl). pose proof (proj1 (Forall_forall _ _) O _ BI) as OL. cbn [snd] in OL.
  destruct (outgoing (length frame) connection (hash e) (hash e') (sn_frame s) time frame) as [ff|x] eqn:EO; cbn [rbind]; [|discriminate].
  destruct (outgoing_ok _ _ _ _ _ _ _ OL EO) as (NE & NP & NB & ->). unfold packets. cbn [complete fr_remaining fr_fragments fr_count Z.eqb negb orb].
  set (ps := map (fragment connection (hash e) (hash e') (sn_frame s) frame time) (seq 0 (pieces frame))).
  assert (zlen ps = Z.of_nat (pieces frame)) as LP by (unfold ps, zlen; rewrite map_length, seq_length; lia). rewrite LP, Z.eqb_refl. cbn [negb rbind]. rewrite Q1, Z.gtb_ltb.
  pose proof (zlen_nonneg (sn_cumulative s)). pose proof (zlen_nonneg sent).
  assert ((if 0 <? zlen (sn_cumulative s) then match nth_error (sn_cumulative s) (Z.to_nat (zlen (sn_cumulative s) - 1)) with Some c => Ok c | None => Err SUndefined end else Ok 0) = Ok (zlen sent)) as ->.
  { rewrite Q2. destruct (Z.ltb_spec 0 (zlen (sn_cumulative s))) as [P|P].
    - assert (sn_cumulative s <> []) as NC by (intros X; rewrite X in P; cbn in P; lia). pose proof (last_nth_error (sn_cumulative s) 0 NC) as L.
      replace (Z.to_nat (zlen (sn_cumulative s) - 1)) with (length (sn_cumulative s) - 1)%nat by (unfold zlen; lia). rewrite L. reflexivity.
    - destruct (sn_cumulative s) as [|x c]; [reflexivity|]. rewrite zlen_cons in P. pose proof (zlen_nonneg c). lia. }
  cbn [rbind]. intros X. injection X as <- <-.
  assert (wrap 64 (zlen sent + Z.of_nat (pieces frame)) = zlen (sent ++ ps)) as EW by (unfold wrap; rewrite zlen_app, LP; apply Z.mod_small; lia). rewrite EW.
  assert (zlen sent <= zlen (sent ++ ps)) by (rewrite zlen_app; lia).
  split; [split; cbn [sn_frame sn_cumulative sn_last sn_delay]|split; [cbn; rewrite zlen_app; cbn; lia|reflexivity]].
  - unfold wrap. rewrite zlen_app. cbn [zlen length]. apply Z.mod_small. cbn. lia.
  - rewrite last_snoc. reflexivity.
  - intros i p N. rewrite zlen_app. change (zlen [zlen (sent ++ ps)]) with 1. destruct (Nat.lt_ge_cases i (length sent)) as [L|L].
    + rewrite nth_error_app1 in N by exact L. destruct (Q3 i p N) as (A & C & D). split; [lia|]. split; [exact C|]. apply seq_grows; assumption.
    + rewrite nth_error_app2 in N by exact L. apply fragments_nth in N. destruct N as (Hi & ->). cbn [fragment pk_frame pk_fragment]. rewrite Q1. split; [lia|]. split; [lia|]. unfold ack_seq. rewrite Z.gtb_ltb.
      destruct (Z.ltb_spec 0 (zlen (sn_cumulative s))) as [P|P].
      * assert (sn_cumulative s <> []) as NC by (intros X; rewrite X in P; cbn in P; lia). pose proof (last_nth_error (sn_cumulative s) 0 NC) as LN.
        rewrite nth_error_app1 by (unfold zlen in *; lia). replace (Z.to_nat (zlen (sn_cumulative s) - 1)) with (length (sn_cumulative s) - 1)%nat by (unfold zlen; lia). rewrite LN, <- Q2.
        unfold wrap. rewrite Z.mod_small by (unfold zlen in *; lia). f_equal. unfold zlen. lia.
      * assert (zlen sent = 0) by lia. f_equal. unfold zlen in *. lia.
  - assert (forall x : Z, zlen [x] = 1) as ONE by reflexivity. rewrite (zlen_app (sn_cumulative s)), ONE, zlen_app, LP. lia.
  - apply Forall_app. split; [eapply Forall_impl; [|exact Q5]; cbn; intros c C; lia|]. repeat constructor; lia.
  - destruct Q6; [auto|]. right. lia.
  - exact Q7.
  - exact Q8.
Qed.

Lemma step_seq s v s' l sent : qinv s sent -> event_fits v -> zlen (sn_cumulative s) + 1 < 2 ^ 32 -> sender_step s v = Ok (s', l) ->
  qinv s' (sent ++ l) /\ zlen (sn_cumulative s) <= zlen (sn_cumulative s') <= zlen (sn_cumulative s) + 1 /\ (sn_last s = MAX64 \/ sn_last s <= sn_last s' < MAX64).
Proof.
  intros Q F B. pose proof (zlen_nonneg sent). pose proof (zlen_nonneg (sn_cumulative s)).
  assert (sn_last s = MAX64 \/ sn_last s <= sn_last s < MAX64) as SL by (pose proof (qi_bound _ _ Q); destruct (qi_last _ _ Q); unfold MAX64 in *; lia).
  destruct v as [t1 t2|outs time|a]; cbn [SenderModel.sender_step].
  - destruct (start s t1 t2) as [[s1 o]|x] eqn:ES; cbn [rbind]; [|discriminate]. intros X. injection X as <- <-. rewrite app_nil_r.
    assert (sn_frame s1 = sn_frame s /\ sn_cumulative s1 = sn_cumulative s /\ sn_last s1 = sn_last s /\ sn_delay s1 = sn_delay s) as (E1 & E2 & E3 & E4).
    { unfold start in ES. destruct (sn_job s); [injection ES as <- <-; auto|]. destruct (match sn_acked s with Some _ => _ | None => _ end) as [[st en]|x]; cbn [rbind] in ES; [|discriminate].
      destruct (select s en t1 t2) as [[k u]|x]; cbn [rbind] in ES; [|discriminate]. destruct (lookup en k); [|discriminate]. injection ES as <- <-. cbn. auto. }
    split; [|split; [rewrite E2; lia|rewrite E3; exact SL]]. destruct Q. split; rewrite ?E1, ?E2, ?E3, ?E4; assumption.
  - intros X. destruct (finish_seq s outs time s' l sent Q F B X) as (A & C & D). split; [exact A|]. split; [exact C|]. rewrite D. exact SL.
  - unfold acknowledge. destruct (negb (ak_connection a =? connection)); cbn [rbind]; [intros X; injection X as <- <-; rewrite app_nil_r; split; [exact Q|]; split; [lia|exact SL]|].
    destruct (ack_seq (sn_cumulative s) (ak_frame a) (ak_fragment a)) as [q|x] eqn:EQ; cbn [rbind]; [|discriminate].
    destruct (negb (sn_last s =? MAX64) && (q <? sn_last s)) eqn:BB; cbn [rbind]; intros X; injection X as <- <-; rewrite app_nil_r; [split; [exact Q|]; split; [lia|exact SL]|].
    destruct F as (_ & F2 & F3 & F4 & _). pose proof Q as [Q1 Q2 Q3 Q4 Q5 Q6 Q7 Q8].
    assert (0 <= q < zlen sent + 65536) as RQ.
    { unfold ack_seq in EQ. rewrite Z.gtb_ltb in EQ. destruct (Z.ltb_spec 0 (ak_frame a)).
      - destruct (nth_error (sn_cumulative s) _) as [c|] eqn:N; [|discriminate]. injection EQ as <-. apply nth_error_In in N. pose proof (proj1 (Forall_forall _ _) Q5 c N) as RC. cbn in RC. unfold wrap. rewrite Z.mod_small by lia. lia.
      - injection EQ as <-. lia. }
    split; [split; cbn [sn_frame sn_cumulative sn_last sn_delay]; auto; unfold MAX64; lia|]. split; [cbn; lia|]. cbn. destruct (Z.eqb_spec (sn_last s) MAX64); [auto|]. right. cbn in BB. unfold MAX64. lia.
Qed.

Lemma run_seq l : forall s s' out sent, qinv s sent -> Forall event_fits l -> zlen (sn_cumulative s) + zlen l < 2 ^ 32 -> sender_run s l = Ok (s', out) ->
  qinv s' (sent ++ out) /\ zlen (sn_cumulative s') <= zlen (sn_cumulative s) + zlen l /\ (sn_last s = MAX64 \/ sn_last s <= sn_last s' < MAX64).
Proof.
  induction l as [|v l IH]; intros s s' out sent Q F B; cbn [SenderModel.sender_run].
  - intros X. injection X as <- <-. rewrite app_nil_r. split; [exact Q|]. split; [cbn; lia|]. pose proof (zlen_nonneg sent). pose proof (qi_bound _ _ Q). cbn in B. destruct (qi_last _ _ Q); unfold MAX64 in *; lia.
  - rewrite zlen_cons in B. pose proof (zlen_nonneg l). inversion F as [|? ? F1 F2]; subst. destruct (sender_step s v) as [[s1 p]|x] eqn:E1; cbn [rbind]; [|discriminate].
    destruct (step_seq s v s1 p sent Q F1 ltac:(lia) E1) as (Q1 & L1 & M1). destruct (sender_run s1 l) as [[s2 q]|x] eqn:E2; cbn [rbind]; [|discriminate]. intros X. injection X as <- <-.
    destruct (IH s1 s2 q (sent ++ p) Q1 F2 ltac:(lia) E2) as (Q2 & L2 & M2). rewrite <- app_assoc in Q2. split; [exact Q2|]. rewrite zlen_cons. split; [lia|].
    destruct M1 as [M1|M1]; [auto|]. destruct M2 as [M2|M2]; [lia|]. right. lia.
Qed.
End Sequence.

(** ** C43 *)

(** The sequence number of a fragment is its position among all the packets
    that were sent, for histories with less than 2^32 events. *)
Theorem C43_sequence :
  forall E (hash : E -> Z) connection conventional e now l s sent,
  Forall event_fits l -> zlen l < 2 ^ 32 -> sender_run hash connection conventional (sender_start hash e now) l = Ok (s, sent) ->
  forall i p, nth_error sent i = Some p -> ack_seq (sn_cumulative s) (pk_frame p) (pk_fragment p) = Ok (Z.of_nat i).
Proof.
  intros E hash connection conventional e now l s sent F B X i p N. destruct (run_seq hash connection conventional l _ _ _ [] (qinv_start hash e now) F ltac:(cbn; lia) X) as (Q & _). apply (qi_seq _ _ Q). exact N.
Qed.

(** Whatever acknowledgements arrive, the last acknowledged one never moves
    back. *)
Theorem C43_monotone :
  forall E (hash : E -> Z) connection conventional e now l1 l2 s1 s2 sent1 sent2,
  Forall event_fits (l1 ++ l2) -> zlen (l1 ++ l2) < 2 ^ 32 ->
  sender_run hash connection conventional (sender_start hash e now) l1 = Ok (s1, sent1) -> sender_run hash connection conventional s1 l2 = Ok (s2, sent2) ->
  sn_last s1 = MAX64 \/ sn_last s1 <= sn_last s2 < MAX64.
Proof.
  intros E hash connection conventional e now l1 l2 s1 s2 sent1 sent2 F B X1 X2. apply Forall_app in F. destruct F as (F1 & F2). rewrite zlen_app in B. pose proof (zlen_nonneg l1). pose proof (zlen_nonneg l2).
  destruct (run_seq hash connection conventional l1 _ _ _ [] (qinv_start hash e now) F1 ltac:(cbn; lia) X1) as (Q & L & _). cbn in L.
  apply (run_seq hash connection conventional l2 s1 s2 sent2 sent1 Q F2 ltac:(lia) X2).
Qed.

(** An acknowledgement of a packet that was sent is never a wrong access, and
    it counts exactly if no later packet has been acknowledged. *)
Theorem C43_accepted :
  forall E (hash : E -> Z) connection conventional e now l s sent i p a,
  Forall event_fits l -> zlen l < 2 ^ 32 -> sender_run hash connection conventional (sender_start hash e now) l = Ok (s, sent) ->
  nth_error sent i = Some p -> ak_connection a = connection -> ak_frame a = pk_frame p -> ak_fragment a = pk_fragment p ->
  exists s', acknowledge connection s a = Ok s' /\
    (if (sn_last s =? MAX64) || (sn_last s <=? Z.of_nat i) then sn_last s' = Z.of_nat i /\ sn_acked s' = Some (ak_current a) /\ sn_complete s' = ak_complete a else s' = s).
Proof.
  intros E hash connection conventional e now l s sent i p a F B X N C1 C2 C3. pose proof (C43_sequence E hash connection conventional e now l s sent F B X i p N) as S.
  unfold acknowledge. rewrite C1, Z.eqb_refl, C2, C3, S. cbn [negb rbind].
  destruct (sn_last s =? MAX64); cbn [negb andb orb]; [eexists; split; [reflexivity|]; cbn; auto|].
  destruct (Z.ltb_spec (Z.of_nat i) (sn_last s)); destruct (Z.leb_spec (sn_last s) (Z.of_nat i)); try lia; (eexists; split; [reflexivity|]; cbn; auto).
Qed.

(** An acknowledgement of a frame that does not exist reads outside of the
    table: the receiver is trusted. *)
Theorem C43_unsent_refuted :
  forall E (hash : E -> Z) connection e now a, ak_connection a = connection -> 0 < ak_frame a ->
  acknowledge connection (sender_start hash e now) a = Err SUndefined.
Proof.
  intros E hash connection e now a H1 H2. unfold acknowledge. rewrite H1, Z.eqb_refl. cbn [negb]. unfold ack_seq. rewrite Z.gtb_ltb. destruct (Z.ltb_spec 0 (ak_frame a)); [|lia].
  cbn. destruct (Z.to_nat (ak_frame a - 1)); reflexivity.
Qed.

(** ** C41 *)

Section Missing.
Context {E : Type}.
Variable hash : E -> Z.
Variable connection : Z.
Variable conventional : bool.
Notation sender_step := (sender_step hash connection conventional).
Notation sender_run := (sender_run hash connection conventional).

(** No frame leads back to the initial state (and [event_fits]). *)
Definition event_ok (h0 : Z) (v : sender_event E) : Prop :=
  match v with
  | Start _ _ => True
  | Finish outs _ => Forall (fun o => hash (fst o) <> h0 /\ zlen (snd o) < 2 ^ 63) outs
  | Acknowledge a => ack_fits a
  end.

Lemma target_size_ok (s : sender E) sent : qinv s sent -> zlen (sn_cumulative s) < 2 ^ 32 -> sn_delay s <> MAX32 -> exists x, target_size (sn_delay s) (sn_last s) (last (sn_cumulative s) 0) = Ok x.
Proof.
  intros [Q1 Q2 Q3 Q4 Q5 Q6 Q7 Q8] B ND. rewrite <- Q2. destruct Q6 as [X|R]; [exfalso; auto|]. unfold target_size. set (d := if sn_delay s =? 0 then 1 else sn_delay s).
  assert (1 <= d) as D1 by (unfold d; destruct (Z.eqb_spec (sn_delay s) 0); lia). assert (0 <= 100000 / d <= 100000) as D2 by (split; [apply Z.div_pos; lia|apply Z.div_le_upper_bound; nia]).
  pose proof (zlen_nonneg sent). set (v := 100000 / d - (zlen sent - sn_last s)). assert (- 2 ^ 50 < v < 2 ^ 50) as V by (unfold v; lia).
  assert (to_int64 (wrap 64 v) = v) as ->.
  { unfold to_int64, wrap. destruct (Z.ltb_spec (v mod 2 ^ 64) 9223372036854775808) as [L|L]; destruct (Z.le_gt_cases 0 v) as [P|P].
    - apply Z.mod_small. lia.
    - replace v with (v + 2 ^ 64 + (-1) * 2 ^ 64) in L by lia. rewrite Z.mod_add, Z.mod_small in L by lia. lia.
    - rewrite Z.mod_small in L by lia. lia.
    - replace (v mod 2 ^ 64) with (v + 2 ^ 64); [lia|]. replace v with (v + 2 ^ 64 + (-1) * 2 ^ 64) at 2 by lia. rewrite Z.mod_add, Z.mod_small by lia. reflexivity. }
  destruct (Z.ltb_spec (1400 * Z.max 0 v) 9223372036854775808); [eauto|lia].
Qed.

(** A packet that was sent: its frame leads from a known state to target
    number [pk_frame]. *)
Definition sent_fact (h0 : Z) (T : list Z) (p : packet) : Prop :=
  0 <= pk_frame p /\ nth_error T (Z.to_nat (pk_frame p)) = Some (pk_target p) /\ pk_connection p = connection /\
  (pk_source p = h0 \/ exists i, Z.of_nat i < pk_frame p /\ nth_error T i = Some (pk_source p)).

Record sinv (h0 : Z) (s : sender E) (T : list Z) (off : nat) (sent : list packet) : Prop := {
  si_t : tinv hash h0 s T off;
  si_q : qinv s sent;
  si_len : length (sn_cumulative s) = length T;
  si_sent : forall p, In p sent -> sent_fact h0 T p;
  si_all : forall k t, nth_error T k = Some t -> exists p, In p sent /\ pk_frame p = Z.of_nat k /\ pk_target p = t;
  si_none : sn_acked s = None -> sn_delay s = MAX32 /\ sn_complete s = [];
  si_last : match rev sent with [] => True | p :: _ => pk_frame p = zlen T - 1 end
}.

Lemma sinv_start e now : sinv (hash e) (sender_start hash e now) [] 0 [].
Proof. split; [apply sender_start_tinv|apply qinv_start|reflexivity|intros p []|intros [|k] t X; discriminate|cbn; auto|exact Logic.I]. Qed.

Lemma sent_fact_app h0 T t p : sent_fact h0 T p -> sent_fact h0 (T ++ [t]) p.
Proof.
  intros (A & B & C & D). split; [exact A|]. split; [rewrite nth_error_app1 by (apply nth_error_Some; congruence); exact B|]. split; [exact C|].
  destruct D as [D|(i & I & J)]; [auto|]. right. exists i. split; [exact I|]. rewrite nth_error_app1 by (apply nth_error_Some; congruence). exact J.
Qed.

Lemma finish_sinv h0 s T off sent outs time s' l : sinv h0 s T off sent -> Forall (fun o => zlen (snd o) < 2 ^ 63) outs -> zlen T + 1 < 2 ^ 32 -> (forall p, In p l -> pk_target p <> h0) -> finish hash connection conventional s outs time = Ok (s', l) ->
  exists T', sinv h0 s' T' off (sent ++ l) /\ sn_acked s' = sn_acked s /\ sn_complete s' = sn_complete s /\
    ((T' = T /\ l = []) \/ exists e e' frame, sn_job s = Some e /\ In (e', frame) outs /\ T' = T ++ [hash e'] /\ zlen frame <= 65535 * 1400 /\ l = map (fragment connection (hash e) (hash e') (zlen T) frame time) (seq 0 (pieces frame))).
Proof.
  intros [I1 I2 I3 I4 I5 I6 I7] O B NT X. destruct (sn_job s) as [e|] eqn:J.
  2:{ unfold finish in X. rewrite J in X. injection X as <- <-. exists T. rewrite app_nil_r. split; [split; assumption|]. auto. }
  assert (zlen (sn_cumulative s) + 1 < 2 ^ 32) as BC by (unfold zlen in *; rewrite I3; exact B).
  destruct (finish_seq hash connection conventional s outs time s' l sent I2 O BC X) as (Q & _).
  pose proof (finish_spec hash connection conventional h0 s T off e outs time I1 J O I3 B) as P. rewrite X in P. destruct P as (P1 & P2 & P3 & P4 & P5 & [(-> & P6 & P7)|(e' & frame & P6 & P7 & P8 & P9 & -> & P10)]).
  - exists T. rewrite app_nil_r in *. split; [|auto]. split; auto; [rewrite P7; exact I3|]. rewrite P2, P3, P5. exact I6.
  - assert (hash e' <> h0) as NH by (apply (NT (fragment connection (hash e) (hash e') (zlen T) frame time 0)), in_map, in_seq; lia). specialize (P7 NH). exists (T ++ [hash e']). split; [|split; [exact P2|split; [exact P3|right; exists e, e', frame; auto 10]]]. split; auto.
    + rewrite P10, !app_length, I3. reflexivity.
    + intros p X1. apply in_app_or in X1. destruct X1 as [X1|X1]; [apply sent_fact_app, I4, X1|]. apply In_nth_error in X1. destruct X1 as (i & X1). apply fragments_nth in X1. destruct X1 as (_ & ->). unfold sent_fact.
      cbn [fragment pk_frame pk_target pk_connection pk_source]. pose proof (zlen_nonneg T). split; [lia|]. split; [rewrite nth_error_app2 by (unfold zlen; lia); replace (Z.to_nat (zlen T) - length T)%nat with 0%nat by (unfold zlen; lia); reflexivity|].
      split; [reflexivity|]. destruct (ti_job _ _ _ _ _ I1 e J) as [SJ|SJ]; [auto|]. right. apply In_nth_error in SJ. destruct SJ as (i' & SJ). exists i'. assert (i' < length T)%nat by (apply nth_error_Some; congruence). split; [unfold zlen; lia|]. rewrite nth_error_app1 by assumption. exact SJ.
    + intros k t K. destruct (Nat.lt_ge_cases k (length T)) as [L|L].
      * rewrite nth_error_app1 in K by exact L. destruct (I5 k t K) as (p & A & C). exists p. split; [apply in_or_app; auto|exact C].
      * rewrite nth_error_app2 in K by exact L. destruct (k - length T)%nat as [|m] eqn:EM; [|destruct m; discriminate]. injection K as <-.
        exists (fragment connection (hash e) (hash e') (zlen T) frame time 0). split; [apply in_or_app; right; apply in_map, in_seq; lia|]. cbn. split; [unfold zlen; lia|reflexivity].
    + rewrite P2, P3, P5. exact I6.
    + rewrite rev_app_distr. set (l := map _ _). destruct (rev l) as [|p r] eqn:ER.
      * exfalso. apply (f_equal (@length packet)) in ER. unfold l in ER. rewrite rev_length, map_length, seq_length in ER. cbn in ER. lia.
      * cbn [app]. assert (In p l) as IP by (apply in_rev; rewrite ER; left; reflexivity). unfold l in IP. apply in_map_iff in IP. destruct IP as (i & <- & _). cbn. rewrite zlen_app. cbn. lia.
Qed.

Lemma finish_targets h0 s outs time s' l : Forall (fun o => hash (fst o) <> h0) outs -> Forall (fun o => zlen (snd o) < 2 ^ 63) outs -> finish hash connection conventional s outs time = Ok (s', l) -> forall p, In p l -> pk_target p <> h0.
Proof.
  intros F L X p I. unfold finish in X. destruct (sn_job s) as [e|]; [|injection X as <- <-; destruct I].
  destruct (if sn_delay s =? MAX32 then _ else _) as [size|x]; cbn [rbind] in X; [|discriminate].
  set (best := if conventional then hd_error outs else _) in X.
  assert (forall o, best = Some o -> In o outs) as BI.
  { intros o. unfold best. destruct conventional; [destruct outs; [discriminate|intros Y; injection Y as ->; left; reflexivity]|].
    destruct (choose outs size None MAX64) as [o'|] eqn:CH; [intros Y; injection Y as ->; apply choose_in in CH; destruct CH; [assumption|discriminate]|].
    destruct (_ <? _); [discriminate|]. intros Y. apply in_rev. destruct (rev outs); [discriminate|]. injection Y as ->. left. reflexivity. }
  destruct best as [[e' frame]|]; [|injection X as <- <-; destruct I]. specialize (BI _ eq_refl). pose proof (proj1 (Forall_forall _ _) F _ BI) as OF. pose proof (proj1 (Forall_forall _ _) L _ BI) as OL. cbn [fst snd] in OF, OL.
  destruct (outgoing (length frame) connection (hash e) (hash e') (sn_frame s) time frame) as [ff|x] eqn:EO; cbn [rbind] in X; [|discriminate].
  destruct (outgoing_ok _ _ _ _ _ _ _ OL EO) as (_ & _ & _ & ->). unfold packets in X. destruct (_ || _) in X; cbn [rbind] in X; [discriminate|].
  destruct (if sn_frame s >? 0 then _ else _) in X; cbn [rbind] in X; [|discriminate]. injection X as <- <-. cbn [fr_fragments] in I. apply in_map_iff in I. destruct I as (i & <- & _). exact OF.
Qed.

Lemma ack_sinv h0 s T off sent a s' : sinv h0 s T off sent -> ack_fits a -> zlen T + 1 < 2 ^ 32 -> acknowledge connection s a = Ok s' ->
  sinv h0 s' T off sent /\ (s' = s \/ (sn_acked s' = Some (ak_current a) /\ sn_complete s' = ak_complete a)).
Proof.
  intros [I1 I2 I3 I4 I5 I6 I7] F B X. assert (zlen (sn_cumulative s) + 1 < 2 ^ 32) as BC by (unfold zlen in *; rewrite I3; exact B).
  destruct (step_seq hash connection conventional s (Acknowledge a) s' [] sent I2 F BC) as (Q & _); [cbn; rewrite X; reflexivity|]. rewrite app_nil_r in Q.
  pose proof (acknowledge_spec hash connection h0 s T off a I1) as P. rewrite X in P. destruct P as (P1 & P2 & P3 & P4). split; [|destruct P4 as [P4|(P4 & P5 & _)]; auto].
  split; auto; [rewrite P2; exact I3|]. destruct P4 as [->|(P4 & _)]; [exact I6|]. rewrite P4. discriminate.
Qed.

Lemma start_sinv h0 s T off sent t1 t2 s' o : sinv h0 s T off sent -> zlen T + 1 < 2 ^ 32 -> start s t1 t2 = Ok (s', o) ->
  exists off', (off <= off')%nat /\ sinv h0 s' T off' sent /\ sn_acked s' = sn_acked s /\ sn_complete s' = sn_complete s /\
    (off' = off \/ exists c, sn_acked s = Some c /\ c <> h0 /\ In c (sn_states s) /\ ~ In c (firstn (off' - off) (sn_states s))).
Proof.
  intros [I1 I2 I3 I4 I5 I6 I7] B X. destruct (sn_job s) as [e|] eqn:J.
  { unfold start in X. rewrite J in X. injection X as <- <-. exists off. split; [lia|]. split; [split; assumption|]. auto. }
  assert (zlen (sn_cumulative s) + 1 < 2 ^ 32) as BC by (unfold zlen in *; rewrite I3; exact B).
  destruct (step_seq hash connection conventional s (Start t1 t2) s' [] sent I2 Logic.I BC) as (Q & _); [cbn; rewrite X; reflexivity|]. rewrite app_nil_r in Q.
  pose proof (start_spec hash h0 s T off t1 t2 I1 J) as P. rewrite X in P. destruct P as (off' & k & P1 & P2 & P3 & P4 & P5 & P6 & P7 & P8 & P9 & P10 & P11).
  exists off'. split; [exact P1|]. split; [|auto]. split; auto; [rewrite P9; exact I3|]. rewrite P7, P8, P11. exact I6.
Qed.

Lemma run_sinv h0 l : forall s T off sent s' out, sinv h0 s T off sent -> Forall (event_ok h0) l -> zlen T + zlen l < 2 ^ 32 - 1 -> sender_run s l = Ok (s', out) ->
  exists T' off', sinv h0 s' T' off' (sent ++ out) /\ zlen T' <= zlen T + zlen l.
Proof.
  induction l as [|v l IH]; intros s T off sent s' out I F B; cbn [SenderModel.sender_run].
  - intros X. injection X as <- <-. rewrite app_nil_r. exists T, off. split; [exact I|cbn; lia].
  - rewrite zlen_cons in *. pose proof (zlen_nonneg l). inversion F as [|? ? F1 F2]; subst. destruct (sender_step s v) as [[s1 p]|x] eqn:E1; cbn [rbind]; [|discriminate].
    destruct (sender_run s1 l) as [[s2 q]|x] eqn:E2; cbn [rbind]; [|discriminate]. intros X. injection X as <- <-.
    assert (exists T1 off1, sinv h0 s1 T1 off1 (sent ++ p) /\ zlen T1 <= zlen T + 1) as (T1 & off1 & I1 & L1).
    { destruct v as [t1 t2|outs time|a]; cbn in E1, F1.
      - destruct (start s t1 t2) as [[s3 o]|x] eqn:ES; cbn in E1; [|discriminate]. injection E1 as <- <-. destruct (start_sinv h0 s T off sent t1 t2 s3 o I ltac:(lia) ES) as (off' & _ & A & _). exists T, off'. rewrite app_nil_r. split; [exact A|lia].
      - destruct (finish_sinv h0 s T off sent outs time s1 p I (Forall_impl _ (fun a P => proj2 P) F1) ltac:(lia) (finish_targets h0 s outs time s1 p (Forall_impl _ (fun a P => proj1 P) F1) (Forall_impl _ (fun a P => proj2 P) F1) E1) E1) as (T' & A & _ & _ & [(-> & _)|(e & e' & frame & _ & _ & -> & _)]); [exists T, off; split; [exact A|lia]|]. exists (T ++ [hash e']), off. split; [exact A|]. rewrite zlen_app. cbn. lia.
      - destruct (acknowledge connection s a) as [s3|x] eqn:ES; cbn in E1; [|discriminate]. injection E1 as <- <-. destruct (ack_sinv h0 s T off sent a s3 I F1 ltac:(lia) ES) as (A & _). exists T, off. rewrite app_nil_r. split; [exact A|lia]. }
    destruct (IH s1 T1 off1 (sent ++ p) s2 q I1 F2 ltac:(lia) E2) as (T2 & off2 & I2 & L2). rewrite <- app_assoc in I2. exists T2, off2. split; [exact I2|lia].
Qed.
End Missing.

(** Everything that can stop the sender, whatever acknowledgements arrive: an
    encoder is missing only if the sender is conservative and the last state of
    the accepted acknowledgement is not one that it still has; [get] fails only
    if an acknowledgement comes before the first frame; undefined behaviour
    needs an acknowledgement of a frame that was not sent; packet.cc fails only
    for frames without contents or with more than 65535 fragments. *)
Theorem C41_failures :
  forall E (hash : E -> Z) connection conventional e now l s sent v x,
  Forall (event_ok hash (hash e)) l -> event_ok hash (hash e) v -> zlen l < 2 ^ 32 - 1 ->
  sender_run hash connection conventional (sender_start hash e now) l = Ok (s, sent) -> sender_step hash connection conventional s v = Err x ->
  match x with
  | SMissing k => exists t1 t2, v = Start t1 t2 /\ conservative s t1 /\ sn_complete s <> [] /\ k = last (sn_complete s) 0 /\ k <> hash e
  | SGet => sent = [] /\ sn_acked s = Some (hash e)
  | SUndefined => match v with
                  | Acknowledge a => forall p, In p sent -> pk_frame p <> ak_frame a
                  | Finish _ _ => sent = [] /\ sn_acked s <> None
                  | Start _ _ => False
                  end
  | SPacket _ => exists outs time o, v = Finish outs time /\ In o outs /\ (snd o = [] \/ 65535 * 1400 < zlen (snd o))
  end.
Proof.
  intros E hash connection conventional e now l s sent v x F Fv B X ST. destruct (run_sinv hash connection conventional (hash e) l _ _ _ _ _ _ (sinv_start hash connection e now) F ltac:(cbn; lia) X) as (T & off & I & L). cbn [app] in I. cbn in L.
  assert (T = [] -> sent = []) as EMPTY.
  { intros ->. destruct sent as [|p sent']; [reflexivity|]. destruct (si_sent _ _ _ _ _ _ _ I p (or_introl eq_refl)) as (_ & Q & _). destruct (Z.to_nat (pk_frame p)); discriminate. }
  assert (zlen (sn_cumulative s) = zlen T) as LC by (unfold zlen; rewrite (si_len _ _ _ _ _ _ _ I); reflexivity).
  destruct v as [t1 t2|outs time|a]; cbn in ST, Fv.
  - destruct (start s t1 t2) as [[s3 o]|y] eqn:ES; cbn in ST; [discriminate|]. injection ST as ->. destruct (sn_job s) as [j|] eqn:J; [unfold start in ES; rewrite J in ES; discriminate|].
    pose proof (start_spec hash (hash e) s T off t1 t2 (si_t _ _ _ _ _ _ _ I) J) as P. rewrite ES in P. destruct x as [|k| |y]; [destruct P as (P1 & P2); auto| |destruct P|destruct P].
    exists t1, t2. destruct P as (P1 & P2 & P3 & P4 & _). auto.
  - destruct (sn_job s) as [j|] eqn:J; [|unfold finish in ST; rewrite J in ST; discriminate].
    pose proof (finish_spec hash connection conventional (hash e) s T off j outs time (si_t _ _ _ _ _ _ _ I) J (Forall_impl _ (fun a P => proj2 P) Fv) (si_len _ _ _ _ _ _ _ I) ltac:(lia)) as P. rewrite ST in P.
    destruct P as [(-> & P1 & P2)|(o & P1 & P2 & p & ->)]; [|exists outs, time, o; auto]. destruct P2 as [P2|P2].
    + split; [auto|]. intros N. apply (si_none _ _ _ _ _ _ _ I) in N. tauto.
    + exfalso. destruct (target_size_ok s sent (si_q _ _ _ _ _ _ _ I) ltac:(lia) P1) as (y & Y). congruence.
  - destruct (acknowledge connection s a) as [s3|y] eqn:ES; cbn in ST; [discriminate|]. injection ST as ->. pose proof (acknowledge_spec hash connection (hash e) s T off a (si_t _ _ _ _ _ _ _ I)) as P. rewrite ES in P. destruct P as (-> & P & _).
    intros p Ip EQ. apply (In_nth_error) in Ip. destruct Ip as (i & Ip). destruct (qi_seq _ _ (si_q _ _ _ _ _ _ _ I) i p Ip) as (P1 & P2 & P3). rewrite EQ in *. unfold ack_seq in P, P3. destruct (ak_frame a >? 0); [|discriminate].
    destruct (nth_error _ _); discriminate.
Qed.

(** When it is not conservative the sender starts from the target of the last
    frame (or from the initial state before the first frame), and the encoder
    is there. *)
Theorem C41_assumed :
  forall E (hash : E -> Z) connection conventional e now l s sent t1 t2,
  Forall (event_ok hash (hash e)) l -> zlen l < 2 ^ 32 - 1 ->
  sender_run hash connection conventional (sender_start hash e now) l = Ok (s, sent) -> sn_job s = None -> ~ conservative s t1 -> (sent = [] -> sn_acked s = None) ->
  exists s' j, start s t1 t2 = Ok (s', Some (hash j)) /\ sn_job s' = Some j /\
    (match rev sent with [] => hash j = hash e | p :: _ => hash j = pk_target p end).
Proof.
  intros E hash connection conventional e now l s sent t1 t2 F B X J NC A0. destruct (run_sinv hash connection conventional (hash e) l _ _ _ _ _ _ (sinv_start hash connection e now) F ltac:(cbn; lia) X) as (T & off & I & L). cbn [app] in I.
  pose proof (start_spec hash (hash e) s T off t1 t2 (si_t _ _ _ _ _ _ _ I) J) as P. destruct (start s t1 t2) as [[s' o]|y].
  - destruct P as (off' & k & P1 & P2 & -> & (j & P3 & P4) & P5 & _). exists s', j. rewrite P4. split; [reflexivity|]. split; [exact P3|]. destruct P5 as [(C & _)|(_ & ->)]; [contradiction|].
    assert (forall p, In p sent -> T <> []) as NE.
    { intros p Ip ->. destruct (si_sent _ _ _ _ _ _ _ I p Ip) as (_ & Q & _). destruct (Z.to_nat (pk_frame p)); discriminate. }
    destruct sent as [|p0 q0] using rev_ind; [|clear IHq0].
    + cbn. destruct T as [|t T]; [reflexivity|]. destruct (si_all _ _ _ _ _ _ _ I 0%nat t eq_refl) as (p & [] & _).
    + rewrite rev_app_distr. cbn. assert (In p0 (q0 ++ [p0])) as IP by (apply in_or_app; right; left; reflexivity). pose proof (NE p0 IP) as NT.
      assert (match T with [] => hash e | _ => last T 0 end = last T 0) as -> by (destruct T; [congruence|reflexivity]).
      destruct (si_sent _ _ _ _ _ _ _ I p0 IP) as (G0 & G1 & _).
      assert (Z.to_nat (pk_frame p0) = (length T - 1)%nat) as EL.
      { pose proof (si_last _ _ _ _ _ _ _ I) as SL. rewrite rev_app_distr in SL. cbn in SL. unfold zlen in SL. lia. }
      rewrite EL, (last_nth_error T 0 NT) in G1. injection G1 as <-. reflexivity.
  - exfalso. destruct y as [|k| |y]; [|tauto|exact P|exact P]. destruct P as (-> & P).
    assert (sent = []) as ->. { destruct sent as [|p sent']; [reflexivity|]. destruct (si_sent _ _ _ _ _ _ _ I p (or_introl eq_refl)) as (_ & Q & _). destruct (Z.to_nat (pk_frame p)); discriminate. }
    rewrite (A0 eq_refl) in P. discriminate.
Qed.

(** ** Examples *)

(** Two frames, the first with two fragments; its first fragment is
    acknowledged, then the second frame is encoded from its target. *)
Definition example_events : list (sender_event Z) :=
  [Start 0 0; Finish [(5, repeat 9 1401); (6, [1])] 0; Acknowledge (mkAck 7 0 0 100 0 []); Start 1 1; Finish [(8, [2]); (9, [1])] 0].
Example C43_example :
  Forall (event_ok (fun e : Z => e) 0) example_events /\ Forall event_fits example_events /\
  exists s sent, sender_run (fun e => e) 7 true (sender_start (fun e => e) 0 0) example_events = Ok (s, sent) /\ map pk_frame sent = [0; 0; 1] /\ map pk_fragment sent = [0; 1; 0] /\
    map pk_target sent = [5; 5; 8] /\ sn_last s = 0 /\ sn_cumulative s = [2; 3] /\ sn_job s = None /\ ~ conservative s 2 /\ (sent = [] -> sn_acked s = None).
Proof.
  split; [repeat constructor; cbn; lia|]. split; [repeat constructor; cbn; lia|].
  assert (match sender_run (fun e => e) 7 true (sender_start (fun e : Z => e) 0 0) example_events with
    | Ok (s, sent) => map pk_frame sent = [0; 0; 1] /\ map pk_fragment sent = [0; 1; 0] /\ map pk_target sent = [5; 5; 8] /\ sn_last s = 0 /\ sn_cumulative s = [2; 3] /\ sn_job s = None /\
        sn_until s = 0 /\ sn_acked s = Some 0 /\ existsb (Z.eqb 0) (map fst (sn_encoders s)) = true
    | Err _ => False end) as X by (vm_compute; auto 20).
  destruct (sender_run _ _ _ _ example_events) as [[s sent]|e]; [|destruct X]. destruct X as (X1 & X2 & X3 & X4 & X5 & X6 & X7 & X8 & X9). exists s, sent. repeat (split; [assumption || reflexivity|]). split.
  - intros [C|(c & C1 & C2)]; [lia|]. assert (c = 0) as -> by congruence. apply C2. apply existsb_exists in X9. destruct X9 as (x & I & E). assert (x = 0) as -> by lia. exact I.
  - intros ->. discriminate.
Qed.

(** An acknowledgement before the first frame; a state that was never sent. *)
Example C41_failures_example :
  sender_run (fun e : Z => e) 7 true (sender_start (fun e => e) 0 0) [Acknowledge (mkAck 7 0 0 100 0 []); Start 1 1] = Err SGet /\
  sender_run (fun e : Z => e) 7 true (sender_start (fun e => e) 0 0) [Acknowledge (mkAck 7 0 0 100 3 [4]); Start 1 1] = Err (SMissing 4) /\
  sender_run (fun e : Z => e) 7 true (sender_start (fun e => e) 0 0) [Acknowledge (mkAck 7 1 0 100 3 [4])] = Err SUndefined /\
  sender_run (fun e : Z => e) 7 true (sender_start (fun e => e) 0 0) [Start 1 1; Finish [(5, [])] 0] = Err (SPacket PUndefined).
Proof. vm_compute. auto. Qed.

Print Assumptions C43_sequence.
Print Assumptions C43_monotone.
Print Assumptions C43_accepted.
Print Assumptions C43_unsent_refuted.
Print Assumptions C41_failures.
Print Assumptions C41_assumed.
Print Assumptions C43_example.
