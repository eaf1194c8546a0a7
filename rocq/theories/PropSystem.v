(** Properties of sender, network and receiver together (C41, C42). *)
From Verif Require Import Base ChunkProofs PacketModel PropPacket ReceiverModel ReceiverProofs PropReceiver SenderModel SenderProofs PropSender.

(** ** Positions in the history *)

(** The elements of [c] are elements of [T], in the order of [T], from position
    [lo]; the last one is just before [hi]. *)
Fixpoint positions (T c : list Z) (lo hi : nat) : Prop :=
  match c with
  | [] => lo = hi
  | s :: r => exists i, (lo <= i)%nat /\ nth_error T i = Some s /\ positions T r (S i) hi
  end.

Lemma positions_app T a : forall b lo hi, positions T (a ++ b) lo hi <-> exists m, positions T a lo m /\ positions T b m hi.
Proof.
  induction a as [|s a IH]; intros b lo hi; cbn.
  - split; [intros X; exists lo; auto|intros (m & -> & X); exact X].
  - split.
    + intros (i & A & B & C). apply IH in C. destruct C as (m & C & D). exists m. split; [exists i; auto|exact D].
    + intros (m & (i & A & B & C) & D). exists i. split; [exact A|]. split; [exact B|]. apply IH. exists m. auto.
Qed.
Lemma positions_grow T t c : forall lo hi, positions T c lo hi -> positions (T ++ [t]) c lo hi.
Proof.
  induction c as [|s c IH]; intros lo hi; cbn; [auto|]. intros (i & A & B & C). exists i. split; [exact A|]. split; [rewrite nth_error_app1 by (apply nth_error_Some; congruence); exact B|]. apply IH, C.
Qed.
Lemma positions_weaken T c lo lo' hi : c <> [] -> (lo' <= lo)%nat -> positions T c lo hi -> positions T c lo' hi.
Proof. destruct c as [|s c]; [congruence|]. intros _ L (i & A & B). exists i. split; [lia|exact B]. Qed.
Lemma positions_length T c : forall lo hi, positions T c lo hi -> (lo + length c <= hi)%nat.
Proof. induction c as [|s c IH]; intros lo hi; cbn; [lia|]. intros (i & A & B & C). apply IH in C. lia. Qed.
Lemma positions_bound T c : forall lo hi, (lo <= length T)%nat -> positions T c lo hi -> (hi <= length T)%nat.
Proof. induction c as [|s c IH]; intros lo hi L; cbn; [lia|]. intros (i & A & B & C). apply IH in C; [exact C|]. apply nth_error_Some. congruence. Qed.
Lemma positions_in T c : forall lo hi s, positions T c lo hi -> In s c -> exists i, (lo <= i < hi)%nat /\ nth_error T i = Some s.
Proof.
  induction c as [|x c IH]; intros lo hi s; cbn; [tauto|]. intros (i & A & B & C) [->|I].
  - exists i. pose proof (positions_length _ _ _ _ C). split; [lia|exact B].
  - destruct (IH _ _ _ C I) as (j & J & K). exists j. split; [lia|exact K].
Qed.
Lemma positions_last T c lo hi : c <> [] -> positions T c lo hi -> exists k, hi = S k /\ (lo <= k)%nat /\ nth_error T k = Some (last c 0).
Proof.
  destruct c as [|s c] using rev_ind; [congruence|]. clear IHc. intros _ P. apply positions_app in P. destruct P as (m & P1 & (i & A & B & C)). cbn in C. subst hi. exists i. rewrite last_snoc. apply positions_length in P1. split; [reflexivity|]. split; [lia|exact B].
Qed.

(** ** A step of the receiver *)

Lemma hinv_incl {D} connection (h h' : list packet) (r : receiver D) : incl h h' -> hinv connection h r -> hinv connection h' r.
Proof.
  intros S [A B]. split.
  - intros k f I. destruct (A k f I) as (A1 & A2 & A3 & A4 & A5 & q & Q & R). split; [exact A1|]. split; [exact A2|]. split; [exact A3|]. split; [exact A4|]. split; [exact A5|]. exists q. split; [apply S, Q|exact R].
  - intros s I. destruct (B s I) as (q & Q & R). exists q. split; [apply S, Q|exact R].
Qed.

Lemma receive_states {D} (decode : D -> list Z -> option D) hash connection hist r p t dl r' log a :
  rinv hash r -> hinv connection hist r -> packet_fits p -> receive decode hash connection r p t dl = Ok (r', log, a) ->
  rc_next r <= rc_next r' /\
  exists dropped kept new, rc_complete r = dropped ++ kept /\ rc_complete r' = kept ++ new /\ (dropped <> [] -> exists k, kept = pk_source p :: k) /\
    (new = [] \/ (new = [pk_target p] /\ rc_next r <= pk_frame p /\ rc_next r' = pk_frame p + 1)) /\
    match a with None => r' = r | Some x => x = mkAck connection (pk_frame p) (pk_fragment p) dl (rc_current r') (rc_complete r') end.
Proof.
  intros RI HI Fp E1. split; [apply (receive_inv decode hash connection r p t dl r' log a RI E1)|].
  rewrite (receive_spec decode hash connection r p t dl RI) in E1. destruct (Z.ltb_spec (pk_frame p) (rc_next r)) as [L|G].
  { injection E1 as <- <- <-. exists [], (rc_complete r), []. rewrite app_nil_r. repeat split; auto; congruence. }
  destruct (skip_to decode r p) as [[pl0 lg]|e0]; cbn [rbind] in E1; [|discriminate].
  pose proof (add_to_spec hash connection hist r p HI RI Fp) as AD. destruct (add_to connection r p) as [f|e0]; cbn [of_packet rbind] in E1; [|discriminate].
  destruct AD as (A1 & AF & A2 & A3 & A4 & A5 & A6 & A7).
  destruct (complete f) eqn:CF.
  - destruct (apply_frame decode hash r pl0 f) as [[[[pl st] de] fr]|e0] eqn:AP; cbn [rbind] in E1; [|discriminate]. destruct (negb _); [discriminate|]. injection E1 as <- <- <-. cbn [rc_complete rc_next rc_current].
    destruct (apply_spec decode hash connection r pl0 f pl st de fr RI AP) as (_ & _ & _ & _ & _ & _ & dropped & kept & new & H1 & H2 & H3 & H4 & H5 & H6).
    exists dropped, kept, new. split; [exact H1|]. split; [exact H2|]. split; [intros X; rewrite <- A5; apply H5, X|]. split; [|reflexivity].
    destruct new as [|s [|]]; [auto| |cbn in H4; lia]. right. destruct (H3 s (or_introl eq_refl)) as (X & Y). split; [congruence|]. split; [exact G|reflexivity].
  - destruct (negb _); [discriminate|]. injection E1 as <- <- <-. cbn. exists [], (rc_complete r), []. rewrite app_nil_r. repeat split; auto; congruence.
Qed.

Lemma fragment_fits connection source target no frame time i : 0 <= connection < 2 ^ 16 -> 0 <= source < 2 ^ 32 -> 0 <= target < 2 ^ 32 -> 0 <= no < 2 ^ 32 -> 0 <= time < 2 ^ 32 ->
  zlen frame <= 65535 * 1400 -> (i < pieces frame)%nat -> packet_fits (fragment connection source target no frame time i).
Proof.
  intros C S T N TM L Hi. destruct (piece_length frame i Hi) as (_ & L1). pose proof (pieces_spec frame) as (P1 & P2).
  unfold packet_fits, fragment. cbn [pk_valid pk_connection pk_source pk_target pk_frame pk_fragment pk_count pk_time pk_payload].
  split; [exact C|]. split; [exact S|]. split; [exact T|]. split; [exact N|]. split; [lia|]. split; [lia|]. split; [destruct (Nat.eqb i 0); lia|]. split; [|reflexivity].
  intros X. rewrite X in L1. cbn in L1. lia.
Qed.

(** ** The invariant *)

Section System.
Context {D : Type}.
Variable decode : D -> list Z -> option D.
Variable hash : D -> Z.
Variable connection : Z.
Variable conventional : bool.
Hypothesis hash_range : forall d, 0 <= hash d < 2 ^ 32.
Hypothesis connection_range : 0 <= connection < 2 ^ 16.
Variable h0 : Z.
Notation system_step := (system_step decode hash connection conventional).
Notation system_run := (system_run decode hash connection conventional).

(** Numbers fit into their fields, frames into the memory. *)
Definition system_fits (v : system_event) : Prop :=
  match v with
  | VFinish frames time => 0 <= time < 2 ^ 32 /\ Forall (fun f => zlen f < 2 ^ 63) frames
  | VPacket _ _ delay => 0 <= delay < 2 ^ 32
  | _ => True
  end.

(** What the acknowledgements say: [K] are the levels of their lists. *)
Definition acks_ok (T : list Z) (sent : list packet) (acks : list ack) (K : list nat) (top : nat) : Prop :=
  Forall2 (fun a k => positions T (ak_complete a) 0 k /\ ack_fits a /\ exists p, In p sent /\ ak_frame a = pk_frame p /\ ak_fragment a = pk_fragment p) acks K /\
  (forall i j a b, (i <= j)%nat -> nth_error K i = Some a -> nth_error K j = Some b -> (a <= b)%nat) /\ Forall (fun k => (k <= top)%nat) K.

Record yinv (y : system D) (T : list Z) (off : nat) (K : list nat) (top : nat) : Prop := {
  yi_sender : sinv hash connection h0 (sy_sender y) T off (sy_packets y);
  yi_fits : Forall packet_fits (sy_packets y);
  yi_rinv : rinv hash (sy_receiver y);
  yi_initial : rc_initial (sy_receiver y) = h0;
  yi_hinv : hinv connection (sy_packets y) (sy_receiver y);
  yi_top : positions T (rc_complete (sy_receiver y)) 0 top /\ Z.of_nat top <= rc_next (sy_receiver y);
  yi_acks : acks_ok T (sy_packets y) (sy_acks y) K top
}.

Lemma acks_ok_grow T t sent l acks K top : acks_ok T sent acks K top -> acks_ok (T ++ [t]) (sent ++ l) acks K top.
Proof.
  intros (A & B & C). split; [|split; assumption]. clear B C. induction A as [|a k acks K (P & F & p & I & Q) A IH]; constructor; [|exact IH].
  split; [apply positions_grow, P|]. split; [exact F|]. exists p. split; [apply in_or_app; auto|exact Q].
Qed.

Lemma Forall2_nth {A B} (P : A -> B -> Prop) l m i a : Forall2 P l m -> nth_error l i = Some a -> exists b, nth_error m i = Some b /\ P a b.
Proof. intros F. revert i. induction F as [|x y l m H F IH]; intros [|i]; cbn; try discriminate; [intros X; injection X as <-; eauto|apply IH]. Qed.

Lemma encodings_sizes d frames : forall outs, encodings decode d frames = Some outs -> Forall (fun f => zlen f < 2 ^ 63) frames -> Forall (fun o => zlen (snd o) < 2 ^ 63) outs.
Proof.
  induction frames as [|f r IH]; intros outs; cbn.
  - intros X _. injection X as <-. constructor.
  - destruct (decode d f) as [d'|]; [|discriminate]. destruct (encodings decode d r) as [l|]; [|discriminate]. intros X F. injection X as <-. inversion F; subst. constructor; [assumption|]. apply IH; [reflexivity|assumption].
Qed.

Lemma encodings_in d frames : forall outs, encodings decode d frames = Some outs -> forall o, In o outs -> In (snd o) frames.
Proof.
  induction frames as [|f r IH]; intros outs; cbn.
  - intros X. injection X as <-. intros o [].
  - destruct (decode d f) as [d'|]; [|discriminate]. destruct (encodings decode d r) as [l|]; [|discriminate]. intros X o I. injection X as <-. destruct I as [<-|I]; [left; reflexivity|]. right. apply (IH l eq_refl o I).
Qed.

Definition same_state (s s' : sender D) : Prop := sn_acked s' = sn_acked s /\ sn_complete s' = sn_complete s.

Lemma system_step_inv y T off K top v y' : yinv y T off K top -> system_fits v -> zlen T + 1 < 2 ^ 32 -> (forall p, In p (sy_packets y') -> pk_target p <> h0) ->
  system_step y v = Continues y' -> exists T' off' K' top', yinv y' T' off' K' top' /\ zlen T' <= zlen T + 1 /\
  match v with
  | VStart _ _ => T' = T /\ K' = K /\ top' = top /\ same_state (sy_sender y) (sy_sender y') /\ (off <= off')%nat /\
      (off' = off \/ exists c, sn_acked (sy_sender y) = Some c /\ c <> h0 /\ In c (sn_states (sy_sender y)) /\ ~ In c (firstn (off' - off) (sn_states (sy_sender y))))
  | VFinish _ _ => (T' = T \/ exists t, T' = T ++ [t]) /\ K' = K /\ top' = top /\ same_state (sy_sender y) (sy_sender y') /\ off' = off
  | VPacket i _ _ => T' = T /\ off' = off /\ sy_sender y' = sy_sender y /\ (top <= top')%nat /\ (K' = K \/ K' = K ++ [top'])
  | VAck i => T' = T /\ off' = off /\ K' = K /\ top' = top /\ sy_receiver y' = sy_receiver y /\
      (sy_sender y' = sy_sender y \/ exists a, nth_error (sy_acks y) i = Some a /\ sn_acked (sy_sender y') = Some (ak_current a) /\ sn_complete (sy_sender y') = ak_complete a)
  end.
Proof.
  intros [Y1 Y2 Y3 Y4 Y5 (Y6 & Y7) Y8] F B NT ST. destruct v as [t1 t2|frames time|i time delay|i]; cbn [SenderModel.system_step] in ST.
  - destruct (start (sy_sender y) t1 t2) as [[s' o]|e] eqn:ES; [|discriminate]. injection ST as <-. destruct (start_sinv hash connection conventional h0 _ _ _ _ _ _ _ _ Y1 B ES) as (off' & O1 & O2 & O3 & O4 & O5).
    exists T, off', K, top. split; [split; cbn; auto|]. split; [lia|]. unfold same_state. cbn. auto 10.
  - destruct (sn_job (sy_sender y)) as [d|] eqn:J; [|discriminate]. destruct (encodings decode d frames) as [outs|] eqn:EE; [|discriminate].
    destruct (finish hash connection conventional (sy_sender y) outs time) as [[s' l]|e] eqn:EF; [|discriminate]. injection ST as <-. destruct F as (F1 & F2). cbn [sy_packets] in NT.
    destruct (finish_sinv hash connection conventional h0 _ _ _ _ _ _ _ _ Y1 (encodings_sizes _ _ _ EE F2) B (fun p I => NT p (in_or_app _ _ _ (or_intror I))) EF) as (T' & S1 & S2 & S3 & S4).
    assert (forall x, incl (sy_packets y) (sy_packets y ++ x)) as INC by (intros x q Q; apply in_or_app; auto).
    exists T', off, K, top. destruct S4 as [(-> & ->)|(e & e' & frame & J' & IO & -> & FL & ->)].
    + rewrite app_nil_r in *. split; [split; cbn; rewrite ?app_nil_r; auto|]. split; [lia|]. unfold same_state. auto 10.
    + split; [split; cbn; auto|].
      * apply Forall_app. split; [exact Y2|]. apply Forall_forall. intros p I. apply in_map_iff in I. destruct I as (j & <- & I). apply in_seq in I. pose proof (zlen_nonneg T). apply fragment_fits; auto; lia.
      * eapply hinv_incl; [apply INC|exact Y5].
      * split; [apply positions_grow, Y6|exact Y7].
      * apply acks_ok_grow, Y8.
      * split; [rewrite zlen_app; cbn; lia|]. unfold same_state. cbn. split; [right; eauto|]. auto.
  - destruct (nth_error (sy_packets y) i) as [p|] eqn:EP; [|discriminate]. destruct (receive decode hash connection (sy_receiver y) p time delay) as [[[r lg] a]|e] eqn:ER; [|discriminate]. injection ST as <-.
    apply nth_error_In in EP. pose proof (proj1 (Forall_forall _ _) Y2 p EP) as FP.
    destruct (receive_inv decode hash connection _ _ _ _ _ _ _ Y3 ER) as (R1 & R2 & R3 & _).
    pose proof (receive_hinv decode hash connection _ _ _ _ _ _ _ _ Y3 Y5 FP ER) as R4.
    destruct (receive_states decode hash connection _ _ _ _ _ _ _ _ Y3 Y5 FP ER) as (_ & dropped & kept & new & C1 & C2 & C3 & C4 & C5).
    destruct (si_sent _ _ _ _ _ _ _ Y1 p EP) as (G0 & G1 & G2 & G3).
    assert (exists top', (top <= top')%nat /\ positions T (rc_complete r) 0 top' /\ Z.of_nat top' <= rc_next r) as (top' & P1 & P2 & P3).
    { rewrite C1 in Y6. apply positions_app in Y6. destruct Y6 as (m & M1 & M2).
      assert (positions T kept 0 top) as PK.
      { destruct dropped as [|x dr]; [cbn in M1; subst m; exact M2|]. destruct C3 as (k & ->); [discriminate|]. eapply positions_weaken; [discriminate| |exact M2]. lia. }
      rewrite C2. destruct C4 as [->|(-> & C6 & C7)]; [exists top; rewrite app_nil_r; split; [lia|]; split; [exact PK|lia]|].
      exists (S (Z.to_nat (pk_frame p))). split; [lia|]. split; [|lia]. apply positions_app. exists top. split; [exact PK|]. exists (Z.to_nat (pk_frame p)). split; [lia|]. split; [exact G1|reflexivity]. }
    destruct Y8 as (A1 & A2 & A3).
    assert (forall z, top <= top' -> Forall (fun k => (k <= top)%nat) z -> Forall (fun k => (k <= top')%nat) z)%nat as UP by (intros z L; apply Forall_impl; intros; lia).
    destruct a as [x|].
    + exists T, off, (K ++ [top']), top'. split; [split; cbn; auto|].
      * congruence.
      * eapply hinv_incl; [|exact R4]. intros q Q. apply in_app_or in Q. destruct Q as [Q|[<-|[]]]; assumption.
      * split; [|split].
        -- apply Forall2_app; [exact A1|]. constructor; [|constructor]. subst x. cbn [ak_complete ak_frame ak_fragment]. split; [exact P2|]. split; [|exists p; auto].
           destruct FP as (X1 & X2 & X3 & X4 & X5 & X6 & _). unfold ack_fits. cbn. rewrite (ri_current _ _ R1). split; [exact connection_range|]. split; [exact X4|]. split; [lia|]. split; [exact F|]. split; [apply hash_range|]. split.
           ++ apply Forall_forall. intros z Hz. destruct (positions_in _ _ _ _ _ P2 Hz) as (j & _ & J). destruct (si_all _ _ _ _ _ _ _ Y1 j z J) as (q & IQ & _ & <-). apply (proj1 (Forall_forall _ _) Y2 q IQ).
           ++ pose proof (positions_length _ _ _ _ P2). pose proof (positions_bound _ _ _ _ (Nat.le_0_l _) P2). unfold zlen in *. lia.
        -- intros i1 j1 a b L N1 N2. assert (forall k z, nth_error (K ++ [top']) k = Some z -> (k < length K)%nat /\ nth_error K k = Some z \/ k = length K /\ z = top') as SP.
           { intros k z N. destruct (Nat.lt_ge_cases k (length K)) as [LT|GE]; [left; rewrite nth_error_app1 in N by exact LT; auto|]. right. rewrite nth_error_app2 in N by exact GE. destruct (k - length K)%nat as [|[|]] eqn:EM; try discriminate. injection N as <-. split; [lia|reflexivity]. }
           destruct (SP _ _ N1) as [(L1 & M1)|(L1 & ->)]; destruct (SP _ _ N2) as [(L2 & M2)|(L2 & ->)]; [exact (A2 _ _ _ _ L M1 M2)| |lia|lia].
           apply nth_error_In in M1. pose proof (proj1 (Forall_forall _ _) A3 a M1) as X. cbn in X. lia.
        -- apply Forall_app. split; [apply UP; assumption|]. repeat constructor.
      * split; [lia|]. cbn. auto 10.
    + subst r. exists T, off, K, top. rewrite app_nil_r. split; [split; cbn; auto; repeat split; assumption|]. split; [lia|]. cbn. auto 10.
  - destruct (nth_error (sy_acks y) i) as [a|] eqn:EA; [|discriminate]. destruct (acknowledge connection (sy_sender y) a) as [s'|e] eqn:ES; [|discriminate]. injection ST as <-.
    destruct Y8 as (A1 & A2 & A3). destruct (Forall2_nth _ _ _ _ _ A1 EA) as (k & K1 & K2 & K3 & K4).
    destruct (ack_sinv hash connection conventional h0 _ _ _ _ _ _ Y1 K3 B ES) as (S1 & S2). exists T, off, K, top. split; [split; cbn; auto; split; auto|]. split; [lia|]. cbn. split; [reflexivity|]. split; [reflexivity|]. split; [reflexivity|]. split; [reflexivity|]. split; [reflexivity|].
    destruct S2 as [->|(S2 & S3)]; [auto|]. right. eauto.
Qed.

Lemma system_start_inv d : h0 = hash d -> yinv (system_start hash d) [] 0 [] 0.
Proof.
  intros EH. split; cbn [system_start sy_sender sy_receiver sy_packets sy_acks]; rewrite ?EH.
  - apply sinv_start.
  - constructor.
  - apply start_inv.
  - reflexivity.
  - apply start_hinv.
  - split; [reflexivity|]. cbn. lia.
  - split; [constructor|]. split; [intros [|i] j a b L X; discriminate|constructor].
Qed.

Lemma step_grows y v y' : system_step y v = Continues y' -> incl (sy_packets y) (sy_packets y') /\ incl (sy_acks y) (sy_acks y').
Proof.
  assert (forall A (l m : list A), incl l (l ++ m)) as IL by (intros A l m x I; apply in_or_app; auto). assert (forall A (l : list A), incl l l) as IR by (intros A l x I; exact I).
  destruct v as [t1 t2|frames time|i time delay|i]; cbn.
  - destruct (start _ _ _) as [[s o]|e]; [|discriminate]. intros X. injection X as <-. cbn. auto.
  - destruct (sn_job _); [|discriminate]. destruct (encodings _ _ _); [|discriminate]. destruct (finish _ _ _ _ _ _) as [[s o]|e]; [|discriminate]. intros X. injection X as <-. cbn. auto.
  - destruct (nth_error _ _); [|discriminate]. destruct (receive _ _ _ _ _ _ _) as [[[r lg] o]|e]; [|discriminate]. intros X. injection X as <-. cbn. auto.
  - destruct (nth_error _ _); [|discriminate]. destruct (acknowledge _ _ _) as [s|e]; [|discriminate]. intros X. injection X as <-. cbn. auto.
Qed.
Lemma run_grows l : forall y y', system_run y l = Continues y' -> incl (sy_packets y) (sy_packets y') /\ incl (sy_acks y) (sy_acks y').
Proof.
  induction l as [|v l IH]; intros y y'; cbn [SenderModel.system_run].
  - intros X. injection X as <-. split; intros x I; exact I.
  - destruct (system_step y v) as [y1|e|e|] eqn:ST; try discriminate. intros X. destruct (step_grows _ _ _ ST) as (A & B). destruct (IH _ _ X) as (C & E). split; intros x I; auto.
Qed.

(** ** Discarded states *)

(** The receiver has thrown [s] away because a frame names a later one. *)
Definition superseded (sent : list packet) (s : Z) : Prop :=
  exists q q' p, In q sent /\ In q' sent /\ In p sent /\ pk_target q = s /\ pk_target q' = pk_source p /\ pk_frame q < pk_frame q'.
Definition advertised_kept (y : system D) : Prop :=
  forall s, (exists a, In a (sy_acks y) /\ In s (ak_complete a)) -> In s (rc_complete (sy_receiver y)) \/ superseded (sy_packets y) s.

Lemma superseded_incl sent sent' s : incl sent sent' -> superseded sent s -> superseded sent' s.
Proof. intros S (q & q' & p & A & B & C & E). exists q, q', p. auto. Qed.

Lemma kept_step y T off K top v y' : yinv y T off K top -> advertised_kept y -> system_step y v = Continues y' -> advertised_kept y'.
Proof.
  intros [Y1 Y2 Y3 Y4 Y5 (Y6 & Y7) Y8] AK ST. pose proof (step_grows _ _ _ ST) as (G1 & G2). destruct v as [t1 t2|frames time|i time delay|i]; cbn in ST.
  - destruct (start _ _ _) as [[s o]|e]; [|discriminate]. injection ST as <-. exact AK.
  - destruct (sn_job _); [|discriminate]. destruct (encodings _ _ _); [|discriminate]. destruct (finish _ _ _ _ _ _) as [[s o]|e]; [|discriminate]. injection ST as <-.
    intros x X. destruct (AK x X) as [A|A]; [auto|]. right. eapply superseded_incl; [exact G1|exact A].
  - destruct (nth_error (sy_packets y) i) as [p|] eqn:EP; [|discriminate]. destruct (receive _ _ _ _ _ _ _) as [[[r lg] o]|e] eqn:ER; [|discriminate]. injection ST as <-.
    apply nth_error_In in EP. pose proof (proj1 (Forall_forall _ _) Y2 p EP) as FP.
    destruct (receive_states decode hash connection _ _ _ _ _ _ _ _ Y3 Y5 FP ER) as (_ & dropped & kept & new & C1 & C2 & C3 & C4 & C5). cbn [sy_receiver sy_packets sy_acks].
    assert (forall x, In x (rc_complete (sy_receiver y)) -> In x (rc_complete r) \/ superseded (sy_packets y) x) as DROP.
    { intros x I. rewrite C1 in I. apply in_app_or in I. rewrite C2. destruct I as [I|I]; [|left; apply in_or_app; auto]. right.
      destruct dropped as [|z dr]; [destruct I|]. destruct C3 as (k & ->); [discriminate|]. rewrite C1 in Y6. apply positions_app in Y6. destruct Y6 as (m & M1 & (j & J1 & J2 & _)).
      destruct (positions_in _ _ _ _ _ M1 I) as (i0 & I0 & I1). destruct (si_all _ _ _ _ _ _ _ Y1 i0 x I1) as (q & Q1 & Q2 & Q3). destruct (si_all _ _ _ _ _ _ _ Y1 j _ J2) as (q' & R1 & R2 & R3).
      exists q, q', p. repeat split; auto. lia. }
    intros x (a & A1 & A2). apply in_app_or in A1. destruct A1 as [A1|A1].
    + destruct (AK x (ex_intro _ a (conj A1 A2))) as [B|B]; [apply DROP, B|auto].
    + destruct o as [a'|]; [|destruct A1]. destruct A1 as [<-|[]]. left. rewrite C5 in A2. exact A2.
  - destruct (nth_error _ _); [|discriminate]. destruct (acknowledge _ _ _) as [s|e]; [|discriminate]. injection ST as <-. exact AK.
Qed.

(** The list that the sender has comes from an acknowledgement. *)
Definition complete_from (y : system D) : Prop := sn_complete (sy_sender y) = [] \/ exists a, In a (sy_acks y) /\ ak_complete a = sn_complete (sy_sender y).

Lemma from_step y T off K top v y' : yinv y T off K top -> system_fits v -> zlen T + 1 < 2 ^ 32 -> (forall p, In p (sy_packets y') -> pk_target p <> h0) -> complete_from y -> system_step y v = Continues y' -> complete_from y'.
Proof.
  intros Y F B NT CF ST. destruct (step_grows _ _ _ ST) as (_ & G). destruct (system_step_inv y T off K top v y' Y F B NT ST) as (T' & off' & K' & top' & _ & _ & R). unfold complete_from in *.
  assert (sn_complete (sy_sender y') = sn_complete (sy_sender y) \/ exists a, In a (sy_acks y) /\ sn_complete (sy_sender y') = ak_complete a) as [->|(a & A1 & A2)].
  { destruct v; unfold same_state in R; [left; apply R|left; apply R|left; destruct R as (_ & _ & -> & _); reflexivity|]. destruct R as (_ & _ & _ & _ & _ & [->|(a & A1 & _ & A2)]); [auto|]. right. exists a. split; [apply (nth_error_In _ _ A1)|exact A2]. }
  - destruct CF as [CF|(a & A1 & A2)]; [auto|]. right. exists a. auto.
  - right. exists a. auto.
Qed.

Lemma run_kept l : forall y T off K top y', yinv y T off K top -> advertised_kept y -> complete_from y -> Forall system_fits l -> zlen T + zlen l < 2 ^ 32 - 1 -> (forall p, In p (sy_packets y') -> pk_target p <> h0) ->
  system_run y l = Continues y' -> advertised_kept y' /\ complete_from y' /\ exists T' off' K' top', yinv y' T' off' K' top' /\ zlen T' <= zlen T + zlen l.
Proof.
  induction l as [|v l IH]; intros y T off K top y' Y AK CF F B NT; cbn [SenderModel.system_run].
  - intros X. injection X as <-. split; [exact AK|]. split; [exact CF|]. exists T, off, K, top. split; [exact Y|cbn; lia].
  - destruct (system_step y v) as [y1|e|e|] eqn:ST; try discriminate. intros X. rewrite zlen_cons in *. pose proof (zlen_nonneg l). inversion F as [|? ? F1 F2]; subst. destruct (run_grows _ _ _ X) as (G1 & G2).
    destruct (system_step_inv y T off K top v y1 Y F1 ltac:(lia) (fun p I => NT p (G1 p I)) ST) as (T1 & off1 & K1 & top1 & Y1 & L1 & _).
    destruct (IH y1 T1 off1 K1 top1 y' Y1 (kept_step _ _ _ _ _ _ _ Y AK ST) (from_step _ _ _ _ _ _ _ Y F1 ltac:(lia) (fun p I => NT p (G1 p I)) CF ST) F2 ltac:(lia) NT X) as (A & CF2 & T2 & off2 & K2 & top2 & Y2 & L2). split; [exact A|]. split; [exact CF2|]. exists T2, off2, K2, top2. split; [exact Y2|lia].
Qed.

(** ** Acknowledgements in order *)

(** A state that is a target of the sender is only acknowledged as the current
    one by an acknowledgement that also lists it last. *)
Definition acknowledged_last (y : system D) : Prop :=
  forall a p, In a (sy_acks y) -> In p (sy_packets y) -> ak_current a = pk_target p -> ak_complete a <> [] /\ last (ak_complete a) 0 = ak_current a.

(** The acknowledgements arrive in the order in which they were sent (some may
    be lost or repeated): the numbers do not decrease. *)
Fixpoint in_order (n : nat) (l : list system_event) : Prop :=
  match l with
  | [] => True
  | VAck i :: r => (n <= i)%nat /\ in_order i r
  | _ :: r => in_order n r
  end.

(** [m]: the level of the list that the sender has. *)
Definition finv (y : system D) (T : list Z) (off : nat) (K : list nat) (top n : nat) : Prop :=
  exists m, positions T (sn_complete (sy_sender y)) 0 m /\ (off = 0%nat \/ (off < m)%nat) /\ (m <= top)%nat /\
    (forall j k, (n <= j)%nat -> nth_error K j = Some k -> (m <= k)%nat) /\
    (forall c, sn_acked (sy_sender y) = Some c -> exists a, In a (sy_acks y) /\ ak_current a = c /\ ak_complete a = sn_complete (sy_sender y)).

Lemma off_bound y T off K top n m off' : yinv y T off K top -> acknowledged_last y -> finv y T off K top n -> positions T (sn_complete (sy_sender y)) 0 m -> (off = 0%nat \/ (off < m)%nat) -> (off <= off')%nat ->
  (off' = off \/ exists c, sn_acked (sy_sender y) = Some c /\ c <> h0 /\ In c (sn_states (sy_sender y)) /\ ~ In c (firstn (off' - off) (sn_states (sy_sender y)))) -> off' = 0%nat \/ (off' < m)%nat.
Proof.
  intros Y AL (_ & _ & _ & _ & _ & AC) P O L [->|(c & C1 & C2 & C3 & C4)]; [exact O|]. destruct (AC c C1) as (a & A1 & A2 & A3).
  pose proof (ti_states _ _ _ _ _ (si_t _ _ _ _ _ _ _ (yi_sender _ _ _ _ _ Y))) as TS. rewrite TS in C3, C4.
  assert (In c T) as CT by (rewrite <- (firstn_skipn off T); apply in_or_app; auto). apply In_nth_error in CT. destruct CT as (i & CT). destruct (si_all _ _ _ _ _ _ _ (yi_sender _ _ _ _ _ Y) i c CT) as (p & P1 & _ & P3).
  destruct (AL a p A1 P1 ltac:(congruence)) as (N & LA). rewrite A3 in N, LA. destruct (positions_last _ _ _ _ N P) as (k & -> & _ & K2). rewrite LA, A2 in K2. right.
  destruct (Nat.lt_ge_cases k off') as [LT|GE]; [|lia]. exfalso. apply C4. assert (off <= k)%nat as OK by lia.
  assert (nth_error (firstn (off' - off) (skipn off T)) (k - off) = Some c) as X; [|apply nth_error_In in X; exact X].
  rewrite <- (firstn_skipn off T), nth_error_app2 in K2 by (rewrite firstn_length; lia). assert (k < length T)%nat as KT.
  { destruct (Nat.lt_ge_cases k (length T)) as [|G]; [assumption|]. rewrite (proj2 (nth_error_None _ _)) in K2 by (rewrite skipn_length, firstn_length; lia). discriminate. }
  rewrite firstn_length in K2. replace (Nat.min off (length T)) with off in K2 by lia.
  rewrite <- (firstn_skipn (off' - off) (skipn off T)), nth_error_app1 in K2 by (rewrite firstn_length, skipn_length; lia). exact K2.
Qed.

Lemma fifo_step y T off K top n v y' : yinv y T off K top -> finv y T off K top n -> acknowledged_last y -> system_fits v -> zlen T + 1 < 2 ^ 32 -> (forall p, In p (sy_packets y') -> pk_target p <> h0) ->
  match v with VAck i => (n <= i)%nat | _ => True end -> system_step y v = Continues y' ->
  exists T' off' K' top', yinv y' T' off' K' top' /\ finv y' T' off' K' top' (match v with VAck i => i | _ => n end) /\ zlen T' <= zlen T + 1.
Proof.
  intros Y FI AL F B NT O ST. destruct (step_grows _ _ _ ST) as (_ & GA). destruct (system_step_inv y T off K top v y' Y F B NT ST) as (T' & off' & K' & top' & Y' & L & R). exists T', off', K', top'. split; [exact Y'|]. split; [|exact L].
  pose proof FI as (m & M1 & M2 & M3 & M4 & M5). destruct v as [t1 t2|frames time|i time delay|i].
  - destruct R as (-> & -> & -> & (R1 & R2) & R3 & R4). exists m. rewrite R1, R2. split; [exact M1|]. split; [exact (off_bound y T off K top n m off' Y AL FI M1 M2 R3 R4)|]. split; [exact M3|]. split; [exact M4|]. intros c C. destruct (M5 c C) as (a & A & A'). exists a. auto.
  - destruct R as (R0 & -> & -> & (R1 & R2) & ->). exists m. rewrite R1, R2. split; [destruct R0 as [->|(t & ->)]; [exact M1|apply positions_grow, M1]|]. split; [exact M2|]. split; [exact M3|]. split; [exact M4|]. intros c C. destruct (M5 c C) as (a & A & A'). exists a. auto.
  - destruct R as (-> & -> & R1 & R2 & R3). exists m. rewrite R1. split; [exact M1|]. split; [exact M2|]. split; [lia|]. split; [|intros c C; destruct (M5 c C) as (a & A & A'); exists a; auto].
    destruct R3 as [->| ->]; [exact M4|]. intros j k J N. destruct (Nat.lt_ge_cases j (length K)) as [LT|GE]; [rewrite nth_error_app1 in N by exact LT; eauto|]. rewrite nth_error_app2 in N by exact GE. destruct (j - length K)%nat as [|[|]]; try discriminate. injection N as <-. lia.
  - destruct R as (-> & -> & -> & -> & R0 & R1). destruct R1 as [R1|(a & A1 & A2 & A3)].
    + exists m. rewrite R1. split; [exact M1|]. split; [exact M2|]. split; [exact M3|]. split; [intros j k J; apply M4; lia|]. intros c C. destruct (M5 c C) as (a & A & A'). exists a. auto.
    + destruct (yi_acks _ _ _ _ _ Y) as (Z1 & Z2 & Z3). destruct (Forall2_nth _ _ _ _ _ Z1 A1) as (k & K1 & K2 & _). exists k. rewrite A3. split; [exact K2|]. pose proof (M4 i k O K1). split; [lia|]. split; [apply nth_error_In in K1; exact (proj1 (Forall_forall _ _) Z3 k K1)|].
      split; [intros j k' J N; exact (Z2 i j k k' J K1 N)|]. intros c C. exists a. split; [apply GA, (nth_error_In _ _ A1)|]. split; [congruence|reflexivity].
Qed.

Lemma fifo_run l : forall y T off K top n y', yinv y T off K top -> finv y T off K top n -> acknowledged_last y' -> Forall system_fits l -> zlen T + zlen l < 2 ^ 32 - 1 -> (forall p, In p (sy_packets y') -> pk_target p <> h0) ->
  in_order n l -> system_run y l = Continues y' -> exists T' off' K' top' n', yinv y' T' off' K' top' /\ finv y' T' off' K' top' n' /\ zlen T' <= zlen T + zlen l.
Proof.
  induction l as [|v l IH]; intros y T off K top n y' Y FI AL F B NT O; cbn [SenderModel.system_run].
  - intros X. injection X as <-. exists T, off, K, top, n. split; [exact Y|]. split; [exact FI|cbn; lia].
  - destruct (system_step y v) as [y1|e|e|] eqn:ST; try discriminate. intros X. rewrite zlen_cons in *. pose proof (zlen_nonneg l). inversion F as [|? ? F1 F2]; subst. destruct (run_grows _ _ _ X) as (G1 & G2). destruct (step_grows _ _ _ ST) as (G3 & G4).
    assert (acknowledged_last y) as ALy by (intros a p A P; apply AL; auto).
    destruct (fifo_step y T off K top n v y1 Y FI ALy F1 ltac:(lia) (fun p I => NT p (G1 p I)) ltac:(destruct v; cbn in O; tauto) ST) as (T1 & off1 & K1 & top1 & Y1 & FI1 & L1).
    destruct (IH y1 T1 off1 K1 top1 _ y' Y1 FI1 AL F2 ltac:(lia) NT ltac:(destruct v; cbn in O; tauto) X) as (T2 & off2 & K2 & top2 & n2 & Y2 & FI2 & L2). exists T2, off2, K2, top2, n2. split; [exact Y2|]. split; [exact FI2|lia].
Qed.

(** What stops the sender in a state of the invariant. *)
Lemma fifo_failure y T off K top n v e : yinv y T off K top -> finv y T off K top n -> acknowledged_last y -> system_fits v -> zlen T + 1 < 2 ^ 32 -> system_step y v = SenderFails e ->
  exists frames time f x, v = VFinish frames time /\ In f frames /\ (f = [] \/ 65535 * 1400 < zlen f) /\ e = SPacket x.
Proof.
  intros Y FI AL F B ST. pose proof (yi_sender _ _ _ _ _ Y) as SI. pose proof FI as (m & M1 & M2 & M3 & M4 & M5).
  assert (forall c, sn_acked (sy_sender y) = Some c -> T <> []) as NE.
  { intros c C ->. destruct (M5 c C) as (a & A & _). destruct (yi_acks _ _ _ _ _ Y) as (Z1 & _). apply In_nth_error in A. destruct A as (i & A). destruct (Forall2_nth _ _ _ _ _ Z1 A) as (k & _ & _ & _ & p & P & _).
    destruct (si_sent _ _ _ _ _ _ _ SI p P) as (_ & X & _). destruct (Z.to_nat (pk_frame p)); discriminate. }
  destruct v as [t1 t2|frames time|i time delay|i]; cbn in ST.
  - exfalso. destruct (start (sy_sender y) t1 t2) as [[s' o]|x] eqn:ES; [discriminate|]. injection ST as ->. destruct (sn_job (sy_sender y)) as [j|] eqn:J; [unfold start in ES; rewrite J in ES; discriminate|].
    pose proof (start_spec hash h0 (sy_sender y) T off t1 t2 (si_t _ _ _ _ _ _ _ SI) J) as P. rewrite ES in P. destruct e as [|k| |x]; [|clear ES|destruct P|destruct P].
    + destruct P as (P1 & P2). exact (NE _ P2 P1).
    + destruct P as (_ & P2 & -> & P3 & off' & P4 & P5 & P6). pose proof (off_bound y T off K top n m off' Y AL FI M1 M2 P4 P6) as OB. apply P5. destruct (positions_last _ _ _ _ P2 M1) as (k & -> & _ & K2).
      rewrite <- (firstn_skipn off' T) in K2. assert (off' <= k)%nat as OK by lia. assert (off' <= length T)%nat as OL.
      { destruct (Nat.le_gt_cases off' (length T)) as [|G]; [assumption|]. rewrite (proj2 (nth_error_None _ _)) in K2; [discriminate|]. rewrite app_length, firstn_length, skipn_length. lia. }
      rewrite nth_error_app2 in K2 by (rewrite firstn_length; lia). apply nth_error_In in K2. exact K2.
  - destruct (sn_job (sy_sender y)) as [d|] eqn:J; [|discriminate]. destruct (encodings decode d frames) as [outs|] eqn:EE; [|discriminate].
    destruct (finish hash connection conventional (sy_sender y) outs time) as [[s' l]|x] eqn:EF; [discriminate|]. injection ST as ->. destruct F as (F1 & F2).
    pose proof (finish_spec hash connection conventional h0 (sy_sender y) T off d outs time (si_t _ _ _ _ _ _ _ SI) J (encodings_sizes _ _ _ EE F2) (si_len _ _ _ _ _ _ _ SI) B) as P. rewrite EF in P.
    pose proof (encodings_in _ _ _ EE) as IO.
    destruct P as [(-> & P1 & P2)|(o & P1 & P2 & x & ->)]; [exfalso|exists frames, time, (snd o), x; auto 10]. destruct P2 as [P2|P2].
    + destruct (sn_acked (sy_sender y)) as [c|] eqn:EA; [exact (NE c eq_refl P2)|]. apply (si_none _ _ _ _ _ _ _ SI) in EA. tauto.
    + destruct (target_size_ok (sy_sender y) (sy_packets y) (si_q _ _ _ _ _ _ _ SI)) as (z & Z1); [unfold zlen in *; rewrite (si_len _ _ _ _ _ _ _ SI); lia|exact P1|]. congruence.
  - destruct (nth_error _ _); [|discriminate]. destruct (receive _ _ _ _ _ _ _) as [[[r lg] o]|x]; discriminate.
  - exfalso. destruct (nth_error (sy_acks y) i) as [a|] eqn:EA; [|discriminate]. destruct (acknowledge connection (sy_sender y) a) as [s'|x] eqn:ES; [discriminate|].
    pose proof (acknowledge_spec hash connection h0 (sy_sender y) T off a (si_t _ _ _ _ _ _ _ SI)) as P. rewrite ES in P. destruct P as (_ & P & _).
    destruct (yi_acks _ _ _ _ _ Y) as (Z1 & _). destruct (Forall2_nth _ _ _ _ _ Z1 EA) as (k & _ & _ & _ & p & P1 & P2 & P3). rewrite P2, P3 in P.
    apply In_nth_error in P1. destruct P1 as (j & P1). destruct (qi_seq _ _ (si_q _ _ _ _ _ _ _ SI) j p P1) as (_ & _ & X). congruence.
Qed.
End System.

(** ** C41 *)

(** If the acknowledgements arrive in the order in which they were sent (packets
    may be lost, repeated and reordered, and acknowledgements lost and repeated)
    then nothing but a frame without contents or with more than 65535 fragments
    stops the sender: in particular no encoder is ever missing. Assumed: no
    target equals the fingerprint of the initial state, and
    [acknowledged_last]. What is missing: acknowledgements in another order, for
    which it is false (below). *)
Theorem C41_fifo_partial :
  forall D (decode : D -> list Z -> option D) hash connection conventional d l y v e,
  (forall x, 0 <= hash x < 2 ^ 32) -> 0 <= connection < 2 ^ 16 -> Forall system_fits l -> system_fits v -> zlen l < 2 ^ 32 - 1 ->
  system_run decode hash connection conventional (system_start hash d) l = Continues y ->
  in_order 0 l -> (forall p, In p (sy_packets y) -> pk_target p <> hash d) -> acknowledged_last y ->
  system_step decode hash connection conventional y v = SenderFails e ->
  exists frames time f x, v = VFinish frames time /\ In f frames /\ (f = [] \/ 65535 * 1400 < zlen f) /\ e = SPacket x.
Proof.
  intros D decode hash connection conventional d l y v e HR CR F Fv B X O NT AL ST.
  assert (finv (system_start hash d) [] 0 [] 0 0) as FI.
  { exists 0%nat. cbn. split; [reflexivity|]. split; [auto|]. split; [lia|]. split; [intros [|j] k _ N; discriminate|discriminate]. }
  assert (yinv hash connection (hash d) (system_start hash d) [] 0 [] 0) as Y0 by (eapply system_start_inv; eauto).
  destruct (fifo_run decode hash connection conventional HR CR (hash d) l _ _ _ _ _ _ y Y0 FI AL F ltac:(cbn; lia) NT O X) as (T & off & K & top & n & Y & FI' & L).
  cbn in L. eapply fifo_failure; try eassumption. lia.
Qed.

(** ** C42 *)

(** A state that the receiver has listed in an acknowledgement is still on its
    list, or some frame was encoded from a later one. *)
Theorem C42_discarded :
  forall D (decode : D -> list Z -> option D) hash connection conventional d l y s a,
  (forall x, 0 <= hash x < 2 ^ 32) -> 0 <= connection < 2 ^ 16 -> Forall system_fits l -> zlen l < 2 ^ 32 - 1 ->
  system_run decode hash connection conventional (system_start hash d) l = Continues y -> (forall p, In p (sy_packets y) -> pk_target p <> hash d) ->
  In a (sy_acks y) -> In s (ak_complete a) ->
  In s (rc_complete (sy_receiver y)) \/
  exists q q' p, In q (sy_packets y) /\ In q' (sy_packets y) /\ In p (sy_packets y) /\ pk_target q = s /\ pk_target q' = pk_source p /\ pk_frame q < pk_frame q'.
Proof.
  intros D decode hash connection conventional d l y s a HR CR F B X NT IA IS.
  assert (yinv hash connection (hash d) (system_start hash d) [] 0 [] 0) as Y0 by (eapply system_start_inv; eauto).
  destruct (run_kept decode hash connection conventional HR CR (hash d) l _ _ _ _ _ y Y0) as (A & _); auto.
  - intros z (a' & [] & _).
  - left. reflexivity.
  - apply A. exists a. auto.
Qed.

(** What an encoding starts from: the initial state; or, if the sender is
    conservative, the last state of a list that the receiver has sent; or the
    target of the newest frame, from which (if targets differ) the receiver has
    not moved on. *)
Theorem C42_selected :
  forall D (decode : D -> list Z -> option D) hash connection conventional d l y t1 t2 s' k,
  (forall x, 0 <= hash x < 2 ^ 32) -> 0 <= connection < 2 ^ 16 -> Forall system_fits l -> zlen l < 2 ^ 32 - 1 ->
  system_run decode hash connection conventional (system_start hash d) l = Continues y -> (forall p, In p (sy_packets y) -> pk_target p <> hash d) ->
  start (sy_sender y) t1 t2 = Ok (s', Some k) ->
  k = hash d \/
  (conservative (sy_sender y) t1 /\ exists a, In a (sy_acks y) /\ ak_complete a <> [] /\ k = last (ak_complete a) 0) \/
  (~ conservative (sy_sender y) t1 /\ (exists p, In p (sy_packets y) /\ pk_target p = k /\ forall q, In q (sy_packets y) -> pk_frame q <= pk_frame p) /\
   (distinct_targets (sy_packets y) -> ~ superseded (sy_packets y) k)).
Proof.
  intros D decode hash connection conventional d l y t1 t2 s' k HR CR F B X NT ES.
  assert (yinv hash connection (hash d) (system_start hash d) [] 0 [] 0) as Y0 by (eapply system_start_inv; eauto).
  destruct (run_kept decode hash connection conventional HR CR (hash d) l _ _ _ _ _ y Y0) as (_ & CF & T & off & K & top & Y & L); auto.
  { intros z (a' & [] & _). }
  { left. reflexivity. }
  pose proof (yi_sender _ _ _ _ _ _ _ _ Y) as SI. assert (sn_job (sy_sender y) = None) as J by (unfold start in ES; destruct (sn_job (sy_sender y)); [discriminate|reflexivity]).
  pose proof (start_spec hash (hash d) (sy_sender y) T off t1 t2 (si_t _ _ _ _ _ _ _ SI) J) as P. rewrite ES in P. destruct P as (off' & k' & _ & _ & EK & _ & P & _). injection EK as <-.
  destruct P as [(C & ->)|(C & ->)].
  - unfold known_state. rewrite (ti_initial _ _ _ _ _ (si_t _ _ _ _ _ _ _ SI)). destruct CF as [->|(a & A1 & A2)]; [auto|]. destruct (sn_complete (sy_sender y)) as [|x c] eqn:EC; [auto|]. right. left. split; [exact C|]. exists a. rewrite A2. split; [exact A1|]. split; [discriminate|reflexivity].
  - destruct T as [|t T0] eqn:ET; [auto|]. right. right. split; [exact C|]. rewrite <- ET in *. assert (T <> []) as NE by congruence. pose proof (last_nth_error T 0 NE) as LN.
    destruct (si_all _ _ _ _ _ _ _ SI _ _ LN) as (p & P1 & P2 & P3).
    assert (forall q, In q (sy_packets y) -> pk_frame q <= pk_frame p) as MAX.
    { intros q Q. destruct (si_sent _ _ _ _ _ _ _ SI q Q) as (G0 & G1 & _). assert (Z.to_nat (pk_frame q) < length T)%nat by (apply nth_error_Some; congruence). lia. }
    split; [exists p; auto|]. intros DT (q & q' & p' & Q1 & Q2 & Q3 & Q4 & Q5 & Q6). pose proof (DT q p Q1 P1 ltac:(congruence)). specialize (MAX q' Q2). lia.
Qed.

(** ** Witnesses *)

(** A decoder that is its fingerprint. A frame: its source, its target, whether
    it is long (two fragments). From another state it leads to 200, without its
    second fragment to 100. *)
Definition lossy_decode (d : Z) (frame : list Z) : option Z :=
  match frame with
  | s :: t :: long :: r => Some (if negb (s =? d) then 200 else if (long =? 1) && (zlen r <? 1400) then 100 else t)
  | _ => None
  end.
Definition same (d : Z) : Z := d.
Definition short (s t : Z) : system_event := VFinish [[s; t; 0]; [s; t; 0]] 0.
Definition long (s t : Z) : system_event := let f := s :: t :: 1 :: repeat 0 1400 in VFinish [f; f] 0.
Definition seconds (n : Z) : Z := n * 1000000000.

(** The two fragments of the second frame arrive in the wrong order (its
    number 1, the packet 2, first), and so do their acknowledgements: the second
    one lists both states, the first one, which has the higher sequence number,
    only the older one. *)
Definition reordered : list system_event :=
  [VStart 0 0; short 0 1; VPacket 0 0 1000; VStart 1 1; long 1 2; VPacket 2 0 1000; VPacket 1 0 1000; VAck 2; VStart 2 2; short 2 3; VAck 1; VStart 3 3].

Theorem C41_reordering_refuted :
  Forall system_fits reordered /\ system_run lossy_decode same 7 false (system_start same 0) reordered = SenderFails (SMissing 1).
Proof. split; [repeat constructor; cbn; lia|]. vm_compute. reflexivity. Qed.

(** A delayed acknowledgement: the receiver has listed state 4 (and only sends
    acknowledgements in order), then, after a frame from state 6, discards it;
    the acknowledgement of the incomplete frame towards 5 makes the sender
    conservative and the next encoding starts from 4. *)
Definition delayed : list system_event :=
  [VStart 0 0; short 0 1; VPacket 0 0 1000; VAck 0;
   VStart 0 0; short 1 2;
   VStart 0 0; short 2 3; VPacket 2 0 1000; VAck 1;
   VStart 0 0; short 1 4; VPacket 3 0 1000; VAck 2;
   VStart (seconds 1) (seconds 1); long 4 5; VPacket 4 0 1000;
   VStart (seconds 2) (seconds 2); long 4 6; VPacket 6 0 1000; VPacket 7 0 1000;
   VStart (seconds 6) (seconds 6); short 6 7; VPacket 8 0 1000;
   VAck 4; VStart (seconds 7) (seconds 7)].
Theorem C42_delayed_refuted :
  Forall system_fits delayed /\ in_order 0 delayed /\
  exists y, system_run lossy_decode same 7 false (system_start same 0) delayed = Continues y /\
    sn_job (sy_sender y) = Some 4 /\ (exists a, In a (sy_acks y) /\ In 4 (ak_complete a)) /\ ~ In 4 (rc_complete (sy_receiver y)) /\ lookup (rc_decoders (sy_receiver y)) 4 = None.
Proof.
  split; [repeat constructor; cbn; lia|]. split; [cbn; lia|].
  assert (match system_run lossy_decode same 7 false (system_start same 0) delayed with
    | Continues y => sn_job (sy_sender y) = Some 4 /\ nth_error (map ak_complete (sy_acks y)) 2 = Some [1; 4] /\ rc_complete (sy_receiver y) = [6; 7] /\ lookup (rc_decoders (sy_receiver y)) 4 = None
    | _ => False end) as X by (vm_compute; auto).
  destruct (system_run lossy_decode same 7 false (system_start same 0) delayed) as [y|e|e|]; [|destruct X..]. destruct X as (X1 & X2 & X3 & X4). exists y. split; [reflexivity|]. split; [exact X1|]. split; [|split; [rewrite X3; cbn; lia|exact X4]].
  apply nth_error_In, in_map_iff in X2. destruct X2 as (a & A & I). exists a. rewrite A. split; [exact I|]. cbn. auto.
Qed.

(** ** Examples *)

(** The delayed run without its last two events: all conditions of
    [C41_fifo_partial] hold, frames are lost, the receiver lists several
    states. *)
Example C41_example :
  let l := [VStart 0 0; short 0 1; VPacket 0 0 1000; VAck 0; VStart 0 0; short 1 2; VStart 0 0; short 2 3; VPacket 2 0 1000; VAck 1; VStart 0 0; short 1 4; VPacket 3 0 1000; VAck 2; VStart (seconds 6) (seconds 6)] in
  Forall system_fits l /\ in_order 0 l /\
  exists y, system_run lossy_decode same 7 false (system_start same 0) l = Continues y /\
    (forall p, In p (sy_packets y) -> pk_target p <> same 0) /\ distinct_targets (sy_packets y) /\ acknowledged_last y /\
    map ak_current (sy_acks y) = [1; 200; 4] /\ map ak_complete (sy_acks y) = [[1]; [1]; [1; 4]] /\ map pk_target (sy_packets y) = [1; 2; 3; 4] /\ sn_job (sy_sender y) = Some 4.
Proof.
  intros l. split; [repeat constructor; cbn; lia|]. split; [cbn; lia|]. eexists. split; [vm_compute; reflexivity|]. cbn [sy_packets sy_acks sy_sender].
  split; [intros p I; cbn in I; repeat destruct I as [<-|I]; try (cbn; unfold same; lia); destruct I|].
  split; [intros p q I J; cbn in I, J; repeat destruct I as [<-|I]; try destruct I; repeat destruct J as [<-|J]; try destruct J; cbn; lia|].
  split; [|cbn; auto]. intros a p I J. cbn in I, J. repeat destruct I as [<-|I]; try destruct I; repeat destruct J as [<-|J]; try destruct J; cbn; intros; try lia; split; congruence.
Qed.

Print Assumptions C41_fifo_partial.
Print Assumptions C41_reordering_refuted.
Print Assumptions C42_discarded.
Print Assumptions C42_selected.
Print Assumptions C42_delayed_refuted.
Print Assumptions C41_example.
