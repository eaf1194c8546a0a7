(** Lemmas about the sender. *)
From Verif Require Import Base ChunkProofs PacketModel PropPacket ReceiverModel ReceiverProofs SenderModel.

Lemma insert_facts {A} (l : list (Z * A)) k d :
  (forall x, In x (insert l k d) -> In x l \/ x = (k, d)) /\ (forall j, In j (map fst (insert l k d)) <-> In j (map fst l) \/ j = k).
Proof.
  unfold insert. destruct (lookup l k) as [e|] eqn:E.
  - split; [auto|]. intros j. split; [auto|]. intros [I| ->]; [exact I|]. apply lookup_in, (in_map fst) in E. exact E.
  - split; [intros x [<-|I]; auto|]. intros j. cbn. split; [intros [->|I]; auto|intros [I| ->]; auto].
Qed.

Lemma last_snoc (l : list Z) x d : last (l ++ [x]) d = x.
Proof. induction l as [|y l IH]; [reflexivity|]. cbn. destruct (l ++ [x]) eqn:E; [destruct l; discriminate|exact IH]. Qed.
Lemma last_rev (l : list Z) d : match rev l with [] => l = [] | c :: _ => last l d = c end.
Proof. destruct l as [|x l] using rev_ind; [reflexivity|]. rewrite rev_app_distr. cbn. apply last_snoc. Qed.
Lemma last_nth_error (l : list Z) d : l <> [] -> nth_error l (length l - 1) = Some (last l d).
Proof.
  destruct l as [|x l] using rev_ind; [congruence|]. intros _. rewrite app_length. cbn [length]. rewrite last_snoc. rewrite nth_error_app2 by lia. replace (length l + 1 - 1 - length l)%nat with 0%nat by lia. reflexivity.
Qed.
Lemma last_in (l : list Z) d : l <> [] -> In (last l d) l.
Proof. intros N. eapply nth_error_In. apply (last_nth_error l d N). Qed.

(** What [outgoing] gives whenever it gives something. *)
Lemma outgoing_ok connection source target no time frame f : zlen frame < 2 ^ 63 -> outgoing (length frame) connection source target no time frame = Ok f ->
  frame <> [] /\ 1 <= Z.of_nat (pieces frame) <= 65535 /\ zlen frame <= 65535 * 1400 /\
  f = mkFragmented connection source target no (Z.of_nat (pieces frame)) (map (fragment connection source target no frame time) (seq 0 (pieces frame))) 0.
Proof.
  intros L E. destruct (C19_limits (length frame) connection source target no time frame L) as (X1 & X2 & X3).
  pose proof (pieces_spec frame) as (P1 & P2).
  assert (frame <> []) as NE by (intros N; rewrite (X1 N) in E; discriminate).
  assert (1 <= zlen frame) by (destruct frame; [congruence|rewrite zlen_cons; pose proof (zlen_nonneg frame); lia]).
  assert (zlen frame <= 65535 * 1400) as B.
  { destruct (Z.le_gt_cases (zlen frame) (65535 * 1400)); [assumption|]. exfalso. destruct (Z.le_gt_cases (zlen frame) (65536 * 1400)).
    - rewrite X2 in E by (unfold zlen in *; lia). discriminate.
    - rewrite X3 in E by lia. discriminate. }
  split; [exact NE|]. split; [lia|]. split; [exact B|].
  rewrite outgoing_spec in E; [injection E as <-; reflexivity|exact NE|lia|]. unfold zlen in *. lia.
Qed.

Lemma fragments_nth connection source target no frame time i p : nth_error (map (fragment connection source target no frame time) (seq 0 (pieces frame))) i = Some p ->
  (i < pieces frame)%nat /\ p = fragment connection source target no frame time i.
Proof.
  intros E. assert (i < pieces frame)%nat as Hi by (rewrite <- (seq_length (pieces frame) 0), <- (map_length (fragment connection source target no frame time)); apply nth_error_Some; congruence). split; [exact Hi|].
  rewrite (map_nth_error _ i (seq 0 (pieces frame)) (d := i)) in E; [congruence|]. rewrite nth_error_nth' with (d := 0%nat) by (rewrite seq_length; exact Hi). rewrite seq_nth by exact Hi. reflexivity.
Qed.

Section Sender.
Context {E : Type}.
Variable hash : E -> Z.
Variable connection : Z.
Variable conventional : bool.
Notation finish := (finish hash connection conventional).
Notation acknowledge := (acknowledge connection).

(** ** Cleaning up *)

Lemma cleanup_spec : forall states (encoders : list (Z * E)) acked a,
  match cleanup states encoders acked (Some a) with
  | Err _ => False
  | Ok (st, en) => exists dropped, states = dropped ++ st /\ ~ In acked dropped /\ ~ In a dropped /\
      (forall x, In x en <-> In x encoders /\ (~ In (fst x) dropped \/ In (fst x) st))
  end.
Proof.
  induction states as [|s r IH]; intros encoders acked a; cbn [cleanup].
  - exists []. split; [reflexivity|]. split; [intros []|]. split; [intros []|]. intros x. cbn. tauto.
  - destruct (Z.eqb_spec s acked) as [->|N1]; [|destruct (Z.eqb_spec s a) as [->|N2]].
    + exists []. split; [reflexivity|]. split; [intros []|]. split; [intros []|]. intros x. cbn. tauto.
    + exists []. split; [reflexivity|]. split; [intros []|]. split; [intros []|]. intros x. cbn. tauto.
    + set (enc1 := if existsb (Z.eqb s) r then encoders else erase encoders s). specialize (IH enc1 acked a).
      assert (forall x, In x enc1 <-> In x encoders /\ (fst x <> s \/ In s r)) as EN.
      { intros x. unfold enc1. destruct (existsb (Z.eqb s) r) eqn:EX.
        - apply existsb_exists in EX. destruct EX as (y & Y & Q). assert (s = y) as -> by lia. tauto.
        - rewrite erase_in. split; [tauto|]. intros (A & [B|B]); [tauto|]. exfalso. assert (existsb (Z.eqb s) r = true); [|congruence]. apply existsb_exists. exists s. rewrite Z.eqb_refl. auto. }
      destruct (cleanup r enc1 acked (Some a)) as [[st en]|e]; [|exact IH]. destruct IH as (dropped & -> & D1 & D2 & D3). exists (s :: dropped).
      split; [reflexivity|]. split; [intros [X|X]; [exact (N1 X)|exact (D1 X)]|]. split; [intros [X|X]; [exact (N2 X)|exact (D2 X)]|].
      intros x. rewrite D3, EN, in_app_iff. cbn. destruct (Z.eq_dec (fst x) s) as [->|NS]; [|intuition congruence].
      split; [intros ((A & [B|B]) & C); [congruence|intuition]|]. intros (A & [B|B]); [exfalso; apply B; left; reflexivity|intuition].
Qed.

(** ** The invariant *)

(** [T]: the targets of all frames so far; [off]: how many of them have been
    forgotten. *)
Record tinv (h0 : Z) (s : sender E) (T : list Z) (off : nat) : Prop := {
  ti_initial : sn_initial s = h0;
  ti_not : ~ In h0 T;
  ti_small : zlen T < 2 ^ 32;
  ti_frame : sn_frame s = zlen T;
  ti_assumed : sn_assumed s = match T with [] => None | _ => Some (last T 0) end;
  ti_states : sn_states s = skipn off T;
  ti_off : (T = [] /\ off = 0%nat) \/ (off < length T)%nat;
  ti_keys : forall k, In k (map fst (sn_encoders s)) <-> k = h0 \/ In k (sn_states s);
  ti_hash : forall k e, In (k, e) (sn_encoders s) -> hash e = k;
  ti_job : forall e, sn_job s = Some e -> hash e = h0 \/ In (hash e) T
}.

Lemma sender_start_tinv e now : tinv (hash e) (sender_start hash e now) [] 0.
Proof.
  split; cbn; try reflexivity.
  - intros [].
  - left. auto.
  - intros k. split; [intros [<-|[]]; auto|intros [->|[]]; auto].
  - intros k e' [X|[]]. injection X as <- <-. reflexivity.
  - intros e' X. discriminate.
Qed.

(** The sender only trusts states that it was told about. *)
Definition conservative (s : sender E) (t1 : Z) : Prop := t1 < sn_until s \/ exists c, sn_acked s = Some c /\ ~ In c (map fst (sn_encoders s)).

Definition cleaned (s : sender E) : res sender_error (list Z * list (Z * E)) :=
  match sn_acked s with
  | None => Ok (sn_states s, sn_encoders s)
  | Some c =>
      if negb (c =? sn_initial s) && match lookup (sn_encoders s) c with Some _ => true | None => false end
      then cleanup (sn_states s) (sn_encoders s) c (sn_assumed s)
      else Ok (sn_states s, sn_encoders s)
  end.

Lemma skip_skip (T : list Z) a b : skipn (a + b) T = skipn b (skipn a T).
Proof. revert T. induction a as [|a IH]; intros [|x T]; cbn [skipn Nat.add]; [reflexivity|reflexivity|destruct b; reflexivity|apply IH]. Qed.
Lemma skipn_drop (T : list Z) off dropped st : skipn off T = dropped ++ st -> st = skipn (off + length dropped) T /\ (st <> [] -> (off + length dropped < length T)%nat).
Proof.
  intros Q. assert (st = skipn (off + length dropped) T) as A.
  { rewrite skip_skip, Q. rewrite skipn_app, Nat.sub_diag, skipn_all. reflexivity. }
  split; [exact A|]. intros N. destruct (Nat.lt_ge_cases (off + length dropped) (length T)); [assumption|]. exfalso. apply N. rewrite A. apply skipn_all2. assumption.
Qed.

Lemma last_skipn (T : list Z) off : (off < length T)%nat -> In (last T 0) (skipn off T).
Proof.
  intros H. assert (T <> []) as N by (intros ->; cbn in H; lia). pose proof (last_nth_error T 0 N) as L.
  rewrite <- (firstn_skipn off T) in L at 1. rewrite nth_error_app2 in L by (rewrite firstn_length; lia). apply nth_error_In in L. exact L.
Qed.

Lemma cleaned_spec h0 s T off : tinv h0 s T off ->
  exists st en, cleaned s = Ok (st, en) /\ exists off', (off <= off')%nat /\ st = skipn off' T /\ ((T = [] /\ off' = 0%nat) \/ (off' < length T)%nat) /\
    (forall k, In k (map fst en) <-> k = h0 \/ In k st) /\ (forall k e, In (k, e) en -> hash e = k) /\
    (off' = off \/ exists c, sn_acked s = Some c /\ c <> h0 /\ In c (sn_states s) /\ ~ In c (firstn (off' - off) (sn_states s))) /\
    (forall c, sn_acked s = Some c -> (In c (map fst en) <-> In c (map fst (sn_encoders s)))).
Proof.
  intros I. unfold cleaned.
  assert (exists st en, Ok (st, en) = Ok (sn_states s, sn_encoders s) :> res sender_error _ /\ exists off', (off <= off')%nat /\ st = skipn off' T /\ ((T = [] /\ off' = 0%nat) \/ (off' < length T)%nat) /\
    (forall k, In k (map fst en) <-> k = h0 \/ In k st) /\ (forall k e, In (k, e) en -> hash e = k) /\
    (off' = off \/ exists c, sn_acked s = Some c /\ c <> h0 /\ In c (sn_states s) /\ ~ In c (firstn (off' - off) (sn_states s))) /\
    (forall c, sn_acked s = Some c -> (In c (map fst en) <-> In c (map fst (sn_encoders s))))) as SAME.
  { exists (sn_states s), (sn_encoders s). split; [reflexivity|]. exists off. split; [lia|]. split; [apply I|]. split; [apply I|]. split; [apply I|]. split; [apply I|]. split; [auto|]. tauto. }
  destruct (sn_acked s) as [c|] eqn:EA.
  2:{ destruct SAME as (st & en & Q & X). exists st, en. split; [symmetry; exact Q|exact X]. }
  destruct (negb (c =? sn_initial s) && _) eqn:B.
  2:{ destruct SAME as (st & en & Q & X). exists st, en. split; [symmetry; exact Q|exact X]. }
  clear SAME. destruct (lookup (sn_encoders s) c) as [ec|] eqn:LC; [|rewrite Bool.andb_false_r in B; discriminate].
  assert (c <> h0) as NC by (rewrite (ti_initial _ _ _ _ I) in B; lia).
  assert (In c (sn_states s)) as IC.
  { apply lookup_in, (in_map fst) in LC. apply (ti_keys _ _ _ _ I) in LC. destruct LC; [contradiction|assumption]. }
  assert (off < length T)%nat as LO.
  { destruct (ti_off _ _ _ _ I) as [(-> & ->)|X]; [|exact X]. rewrite (ti_states _ _ _ _ I) in IC. destruct IC. }
  rewrite (ti_assumed _ _ _ _ I). assert (match T with [] => None | _ => Some (last T 0) end = Some (last T 0)) as -> by (destruct T; [cbn in LO; lia|reflexivity]).
  pose proof (cleanup_spec (sn_states s) (sn_encoders s) c (last T 0)) as P. destruct (cleanup _ _ _ _) as [[st en]|e]; [|destruct P].
  destruct P as (dropped & P1 & P2 & P3 & P4). exists st, en. split; [reflexivity|]. exists (off + length dropped)%nat.
  pose proof (ti_states _ _ _ _ I) as TS. rewrite TS in P1. destruct (skipn_drop T off dropped st P1) as (Q1 & Q2).
  assert (In (last T 0) st) as LS.
  { pose proof (last_skipn T off LO) as X. rewrite P1 in X. apply in_app_or in X. destruct X; [contradiction|assumption]. }
  assert (In c st) as CS by (rewrite TS, P1 in IC; apply in_app_or in IC; destruct IC; [contradiction|assumption]).
  assert (forall k, In k (map fst en) <-> k = h0 \/ In k st) as KEYS.
  { intros k. split.
    - intros K. apply in_map_iff in K. destruct K as (x & <- & X). apply P4 in X. destruct X as (X1 & X2). apply (in_map fst), (ti_keys _ _ _ _ I) in X1. destruct X1 as [X1|X1]; [auto|]. right.
      rewrite TS, P1 in X1. apply in_app_or in X1. tauto.
    - intros K. assert (In k (map fst (sn_encoders s))) as KE.
      { apply (ti_keys _ _ _ _ I). destruct K as [K|K]; [auto|]. right. rewrite TS, P1. apply in_or_app. auto. }
      apply in_map_iff in KE. destruct KE as (x & <- & X). apply in_map_iff. exists x. split; [reflexivity|]. apply P4. split; [exact X|]. destruct K as [K|K]; [|auto]. left. rewrite K. intros D.
      apply (ti_not _ _ _ _ I). rewrite <- (firstn_skipn off T), P1. apply in_or_app. right. apply in_or_app. auto. }
  split; [lia|]. split; [exact Q1|]. split; [right; apply Q2; intros ->; destruct LS|]. split; [exact KEYS|]. split; [|split].
  - intros k e X. apply P4 in X. apply (ti_hash _ _ _ _ I), X.
  - right. exists c. split; [reflexivity|]. split; [exact NC|]. split; [exact IC|]. rewrite TS, P1. replace (off + length dropped - off)%nat with (length dropped + 0)%nat by lia. rewrite firstn_app_2. cbn. rewrite app_nil_r. exact P2.
  - intros c' X. injection X as <-. split; [intros _; apply lookup_in, (in_map fst) in LC; exact LC|]. intros _. apply KEYS. auto.
Qed.

(** ** Start of an encoding *)

Lemma start_spec h0 s T off t1 t2 : tinv h0 s T off -> sn_job s = None ->
  match start s t1 t2 with
  | Ok (s', o) =>
      exists off' k, (off <= off')%nat /\ tinv h0 s' T off' /\ o = Some k /\ (exists e, sn_job s' = Some e /\ hash e = k) /\
        ((conservative s t1 /\ k = known_state s) \/ (~ conservative s t1 /\ k = match T with [] => h0 | _ => last T 0 end)) /\
        (off' = off \/ exists c, sn_acked s = Some c /\ c <> h0 /\ In c (sn_states s) /\ ~ In c (firstn (off' - off) (sn_states s))) /\
        sn_acked s' = sn_acked s /\ sn_complete s' = sn_complete s /\ sn_cumulative s' = sn_cumulative s /\ sn_last s' = sn_last s /\ sn_delay s' = sn_delay s
  | Err SGet => T = [] /\ sn_acked s = Some h0
  | Err (SMissing k) => conservative s t1 /\ sn_complete s <> [] /\ k = last (sn_complete s) 0 /\ k <> h0 /\
      exists off', (off <= off')%nat /\ ~ In k (skipn off' T) /\
        (off' = off \/ exists c, sn_acked s = Some c /\ c <> h0 /\ In c (sn_states s) /\ ~ In c (firstn (off' - off) (sn_states s)))
  | Err _ => False
  end.
Proof.
  intros I J. destruct (cleaned_spec h0 s T off I) as (st & en & CE & off' & O1 & O2 & O3 & K & H & OFF & AC). unfold start. rewrite J. fold (cleaned s). rewrite CE. cbn [rbind].
  assert (forall c, sn_acked s = Some c -> (lookup en c = None <-> ~ In c (map fst (sn_encoders s)))) as LA.
  { intros c C. rewrite lookup_none, (AC c C). reflexivity. }
  assert (match select s en t1 t2 with
    | Ok (k, u) => (conservative s t1 /\ k = known_state s) \/ (~ conservative s t1 /\ k = match T with [] => h0 | _ => last T 0 end)
    | Err e => e = SGet /\ T = [] /\ sn_acked s = Some h0 end) as SEL.
  { unfold select. destruct (Z.ltb_spec t1 (sn_until s)) as [C|C]; [left; split; [left; exact C|reflexivity]|].
    destruct (sn_acked s) as [c|] eqn:EA.
    - destruct (lookup en c) as [ec|] eqn:EC.
      + assert (~ conservative s t1) as NC.
        { intros [X|(c' & X & Y)]; [lia|]. assert (c' = c) as -> by congruence. apply (LA c eq_refl) in Y. congruence. }
        unfold get. rewrite (ti_assumed _ _ _ _ I). destruct T as [|x T'] eqn:ET; cbn [rbind]; [|right; auto].
        split; [reflexivity|]. split; [reflexivity|]. apply lookup_in, (in_map fst) in EC. apply K in EC. cbn in EC. destruct EC as [EC|EC]; [congruence|]. rewrite O2 in EC. destruct off'; destruct EC.
      + left. split; [right; exists c; split; [exact EA|]; apply (LA c eq_refl), EC|reflexivity].
    - right. split; [intros [X|(c & X & _)]; [lia|rewrite EA in X; discriminate]|]. rewrite (ti_assumed _ _ _ _ I), (ti_initial _ _ _ _ I). destruct T; reflexivity. }
  destruct (select s en t1 t2) as [[k u]|e]; cbn [rbind]; [|destruct SEL as (-> & X); exact X].
  destruct (lookup en k) as [e|] eqn:EK.
  - exists off', k. split; [exact O1|]. pose proof EK as IK. apply lookup_in in IK. split; [|split; [reflexivity|split; [exists e; split; [reflexivity|exact (H _ _ IK)]|split; [exact SEL|split; [exact OFF|cbn; auto 10]]]]].
    destruct I. split; cbn; auto. intros e1 X. injection X as <-. rewrite (H _ _ IK). apply (in_map fst) in IK. apply K in IK. cbn in IK. destruct IK as [IK|IK]; [auto|]. right. rewrite O2 in IK.
    rewrite <- (firstn_skipn off' T). apply in_or_app. auto.
  - apply lookup_none in EK. assert (~ (k = h0 \/ In k st)) as NK by (intros X; apply EK, K, X). destruct SEL as [(C & ->)|(C & ->)].
    + unfold known_state in *. rewrite (ti_initial _ _ _ _ I) in *. destruct (sn_complete s) as [|x c] eqn:EC; [exfalso; apply NK; auto|]. split; [exact C|]. split; [congruence|]. split; [reflexivity|]. split; [tauto|].
      exists off'. split; [exact O1|]. split; [rewrite <- O2; tauto|exact OFF].
    + exfalso. apply NK. destruct T as [|x T']; [auto|]. right. rewrite O2. apply last_skipn. destruct O3 as [(X & _)|X]; [discriminate|exact X].
Qed.

(** ** End of an encoding *)

Lemma choose_in outs : forall size best diff o, choose outs size best diff = Some o -> In o outs \/ best = Some (o : E * list Z).
Proof.
  induction outs as [|x outs IH]; intros size best diff o; cbn [choose]; [auto|]. destruct (_ && _); intros X; apply IH in X; destruct X as [X|X]; [auto using in_cons| |auto using in_cons|auto].
  injection X as ->. left. left. reflexivity.
Qed.

Lemma finish_spec h0 s T off e outs time : tinv h0 s T off -> sn_job s = Some e -> Forall (fun o => zlen (snd o) < 2 ^ 63) outs -> length (sn_cumulative s) = length T -> zlen T + 1 < 2 ^ 32 ->
  match finish s outs time with
  | Ok (s', l) =>
      sn_job s' = None /\ sn_acked s' = sn_acked s /\ sn_complete s' = sn_complete s /\ sn_last s' = sn_last s /\ sn_delay s' = sn_delay s /\
      ((l = [] /\ tinv h0 s' T off /\ sn_cumulative s' = sn_cumulative s) \/
       exists e' frame, In (e', frame) outs /\ (hash e' <> h0 -> tinv h0 s' (T ++ [hash e']) off) /\ 1 <= Z.of_nat (pieces frame) <= 65535 /\ zlen frame <= 65535 * 1400 /\
         l = map (fragment connection (hash e) (hash e') (zlen T) frame time) (seq 0 (pieces frame)) /\
         sn_cumulative s' = sn_cumulative s ++ [wrap 64 (last (sn_cumulative s) 0 + Z.of_nat (pieces frame))])
  | Err x => (x = SUndefined /\ sn_delay s <> MAX32 /\ (T = [] \/ target_size (sn_delay s) (sn_last s) (last (sn_cumulative s) 0) = Err SUndefined)) \/
             exists o, In o outs /\ (snd o = [] \/ 65535 * 1400 < zlen (snd o)) /\ exists p, x = SPacket p
  end.
Proof.
  intros I J O LC LT. unfold SenderModel.finish. rewrite J.
  set (fsz := if sn_delay s =? MAX32 then Ok MAX64 else _).
  assert (match fsz with Ok _ => True | Err x => x = SUndefined /\ sn_delay s <> MAX32 /\ (T = [] \/ target_size (sn_delay s) (sn_last s) (last (sn_cumulative s) 0) = Err SUndefined) end) as FS.
  { unfold fsz. destruct (Z.eqb_spec (sn_delay s) MAX32) as [|ND]; [exact Logic.I|]. pose proof (last_rev (sn_cumulative s) 0) as LR. destruct (rev (sn_cumulative s)) as [|c cs].
    - split; [reflexivity|]. split; [exact ND|]. left. rewrite LR in LC. destruct T; [reflexivity|discriminate].
    - rewrite LR. destruct (target_size (sn_delay s) (sn_last s) c) as [|x] eqn:TS; [exact Logic.I|]. assert (x = SUndefined) as -> by (unfold target_size in TS; destruct (_ <? _) in TS; congruence). auto. }
  destruct fsz as [size|x]; cbn [rbind]; [|left; exact FS]. clear FS.
  set (best := if conventional then hd_error outs else _).
  assert (forall o, best = Some o -> In o outs) as BI.
  { intros o. unfold best. destruct conventional; [destruct outs; [discriminate|intros X; injection X as ->; left; reflexivity]|].
    destruct (choose outs size None MAX64) as [o'|] eqn:CH; [intros X; injection X as ->; apply choose_in in CH; destruct CH; [assumption|discriminate]|].
    destruct (_ <? _); [discriminate|]. intros X. apply in_rev. destruct (rev outs); [discriminate|]. injection X as ->. left. reflexivity. }
  destruct best as [[e' frame]|].
  - specialize (BI _ eq_refl). pose proof (proj1 (Forall_forall _ _) O _ BI) as OL. cbn [snd] in OL.
    destruct (outgoing (length frame) connection (hash e) (hash e') (sn_frame s) time frame) as [ff|x] eqn:EO; cbn [rbind].
    2:{ right. exists (e', frame). split; [exact BI|]. split; [|eauto]. cbn [snd]. destruct frame as [|b fr]; [auto|]. right. destruct (Z.le_gt_cases (zlen (b :: fr)) (65535 * 1400)) as [LE|]; [|lia]. exfalso.
        pose proof (pieces_spec (b :: fr)) as (P1 & P2). rewrite outgoing_spec in EO; [discriminate|discriminate|lia|]. rewrite zlen_cons in *. pose proof (zlen_nonneg fr). unfold zlen in *. cbn [length]. lia. }
    destruct (outgoing_ok _ _ _ _ _ _ _ OL EO) as (NE & NP & NB & ->). unfold packets. cbn [complete fr_remaining fr_fragments fr_count Z.eqb negb orb].
    assert (zlen (map (fragment connection (hash e) (hash e') (sn_frame s) frame time) (seq 0 (pieces frame))) =? Z.of_nat (pieces frame) = true) as -> by (unfold zlen; rewrite map_length, seq_length; lia).
    cbn [negb rbind]. rewrite (ti_frame _ _ _ _ I). rewrite Z.gtb_ltb.
    assert ((if 0 <? zlen T then match nth_error (sn_cumulative s) (Z.to_nat (zlen T - 1)) with Some c => Ok c | None => Err SUndefined end else Ok 0) = Ok (last (sn_cumulative s) 0)) as ->.
    { destruct (Z.ltb_spec 0 (zlen T)) as [P|P].
      - assert (sn_cumulative s <> []) as NC by (intros X; rewrite X in LC; unfold zlen in P; cbn in LC; lia). pose proof (last_nth_error (sn_cumulative s) 0 NC) as L.
        replace (Z.to_nat (zlen T - 1)) with (length (sn_cumulative s) - 1)%nat by (unfold zlen; lia). rewrite L. reflexivity.
      - destruct (sn_cumulative s) as [|x c]; [reflexivity|]. unfold zlen in P. cbn in LC. lia. }
    cbn [rbind]. split; [reflexivity|]. split; [reflexivity|]. split; [reflexivity|]. split; [reflexivity|]. split; [reflexivity|]. right. exists e', frame. split; [exact BI|]. split; [|split; [exact NP|split; [exact NB|split; reflexivity]]].
    intros OH. destruct (insert_facts (sn_encoders s) (hash e') e') as (N1 & N2). pose proof I as [I1 I2 I3 I4 I5 I6 I7 I8 I9 I10]. split; cbn.
    + exact I1.
    + intros X. apply in_app_or in X. destruct X as [X|[X|[]]]; [contradiction|congruence].
    + rewrite zlen_app. cbn. lia.
    + rewrite zlen_app. unfold wrap. rewrite Z.mod_small by (pose proof (zlen_nonneg T); lia). reflexivity.
    + rewrite last_snoc. destruct T; reflexivity.
    + rewrite I6, skipn_app. replace (off - length T)%nat with 0%nat by (destruct I7 as [(-> & ->)|]; lia). reflexivity.
    + right. rewrite app_length. cbn. destruct I7 as [(_ & ->)|]; lia.
    + intros k. rewrite N2, I8, in_app_iff. cbn. intuition.
    + intros k x X. apply N1 in X. destruct X as [X|X]; [apply I9, X|]. injection X as -> ->. reflexivity.
    + intros x X. discriminate.
  - split; [reflexivity|]. split; [reflexivity|]. split; [reflexivity|]. split; [reflexivity|]. split; [reflexivity|]. left. split; [reflexivity|]. split; [|reflexivity]. destruct I. split; cbn; auto. intros x X. discriminate.
Qed.

(** ** Acknowledgements *)

Lemma acknowledge_spec h0 s T off a : tinv h0 s T off ->
  match acknowledge s a with
  | Ok s' => tinv h0 s' T off /\ sn_cumulative s' = sn_cumulative s /\ sn_job s' = sn_job s /\
      (s' = s \/ (sn_acked s' = Some (ak_current a) /\ sn_complete s' = ak_complete a /\ sn_delay s' = ak_delay a /\ ak_connection a = connection /\
                  ack_seq (sn_cumulative s) (ak_frame a) (ak_fragment a) = Ok (sn_last s') /\ (sn_last s = MAX64 \/ sn_last s <= sn_last s')))
  | Err e => e = SUndefined /\ ack_seq (sn_cumulative s) (ak_frame a) (ak_fragment a) = Err SUndefined /\ ak_connection a = connection
  end.
Proof.
  intros I. unfold SenderModel.acknowledge. destruct (Z.eqb_spec (ak_connection a) connection) as [EC|NC]; cbn [negb]; [|auto].
  destruct (ack_seq (sn_cumulative s) (ak_frame a) (ak_fragment a)) as [q|x] eqn:EQ; cbn [rbind].
  - destruct (negb (sn_last s =? MAX64) && (q <? sn_last s)) eqn:B; [auto|]. split; [destruct I; split; cbn; auto|]. split; [reflexivity|]. split; [reflexivity|]. right. cbn. split; [reflexivity|]. split; [reflexivity|]. split; [reflexivity|]. split; [exact EC|]. split; [reflexivity|].
    destruct (Z.eqb_spec (sn_last s) MAX64); [auto|]. right. cbn in B. lia.
  - assert (x = SUndefined) as -> by (unfold ack_seq in EQ; destruct (_ >? _) in EQ; [destruct (nth_error _ _)|]; congruence). auto.
Qed.
End Sender.
