(** C37: datagrams leave the pacer in the order in which they were pushed, each
    once, and (up to a millisecond) not before their release time. *)
From Verif Require Import Base PacerModel.

(** What was pushed in a history. *)
Fixpoint pushed (l : list pacer_event) : list (list Z) :=
  match l with
  | [] => []
  | Push _ payload _ :: r => payload :: pushed r
  | Send _ _ _ :: r => pushed r
  end.

Lemma push_spec q now payload d : exists w, push q now payload d = q ++ [mkScheduled w payload].
Proof. destruct q; cbn; eexists; reflexivity. Qed.
Lemma send_loop_spec q : forall clock sent rest, send_loop q clock = (sent, rest) -> q = map snd sent ++ rest.
Proof.
  induction q as [|s r IH]; intros clock sent rest; cbn [send_loop].
  - intros E. injection E as <- <-. reflexivity.
  - destruct (ms_until_due (s :: r) (clock O) =? 0); [|intros E; injection E as <- <-; reflexivity].
    destruct (send_loop r _) as [x y] eqn:EL. intros E. injection E as <- <-. cbn. f_equal. eapply IH, EL.
Qed.
Lemma send_action_spec q a b clock sent rest : send_action q a b clock = Some (sent, rest) -> q = map snd sent ++ rest.
Proof.
  unfold send_action. destruct (negb _); [intros E; injection E as <- <-; reflexivity|]. destruct (negb _); [discriminate|].
  intros E. injection E as E. eapply send_loop_spec, E.
Qed.

Lemma run_order l : forall q sent rest, pacer_run q l = Some (sent, rest) ->
  map sc_what q ++ pushed l = map (fun x => sc_what (snd x)) sent ++ map sc_what rest.
Proof.
  induction l as [|[now p d|a b c] l IH]; intros q sent rest; cbn [pacer_run pushed].
  - intros E. injection E as <- <-. cbn. apply app_nil_r.
  - intros E. rewrite <- (IH _ _ _ E). destruct (push_spec q now p d) as (w & ->). rewrite map_app, <- app_assoc. reflexivity.
  - destruct (send_action q a b c) as [[s1 q1]|] eqn:ES; [|discriminate]. destruct (pacer_run q1 l) as [[s2 q2]|] eqn:ER; [|discriminate].
    intros E. injection E as <- <-. rewrite map_app, <- app_assoc, <- (IH _ _ _ ER), (send_action_spec _ _ _ _ _ _ ES), !map_app, map_map, <- app_assoc. reflexivity.
Qed.

(** Order: what has left, followed by what waits, is what was pushed. *)
Theorem C37_order :
  forall l sent rest, pacer_run [] l = Some (sent, rest) -> pushed l = map (fun x => sc_what (snd x)) sent ++ map sc_what rest.
Proof. intros l sent rest E. exact (run_order l [] sent rest E). Qed.

(** *** Release times *)

(** The release times that the pushes ask for, given what is waiting: the
    current time if nothing waits, otherwise [delay] after the one before. A
    history is described by the pushes and by how many datagrams left in between. *)
Definition release (waiting : list Z) (now delay : Z) : Z := match waiting with [] => now | w :: r => last r w + 1000 * delay end.

(** The release times of all the datagrams pushed. [waiting] are the release
    times of those that wait, [gone] says how many leave at each Send. *)
Fixpoint releases (waiting : list Z) (gone : list nat) (l : list pacer_event) : list Z :=
  match l with
  | [] => waiting
  | Push now _ delay :: r => releases (waiting ++ [release waiting now delay]) gone r
  | Send _ _ _ :: r =>
      match gone with
      | [] => []
      | n :: gone' => firstn n waiting ++ releases (skipn n waiting) gone' r
      end
  end.

Lemma last_map (r : list scheduled) s : sc_when (last r s) = last (map sc_when r) (sc_when s).
Proof. revert s. induction r as [|x r IH]; intros s; [reflexivity|]. destruct r as [|y r]; [reflexivity|]. exact (IH s). Qed.
Lemma push_when q now p d : map sc_when (push q now p d) = map sc_when q ++ [release (map sc_when q) now d].
Proof. destruct q as [|s r]; [reflexivity|]. unfold push. rewrite map_app. cbn [map release]. rewrite last_map. reflexivity. Qed.

Theorem C37_release_times :
  forall l sent rest, pacer_run [] l = Some (sent, rest) ->
  exists gone, map (fun x => sc_when (snd x)) sent ++ map sc_when rest = releases [] gone l /\ list_sum gone = length sent.
Proof.
  assert (forall l q sent rest, pacer_run q l = Some (sent, rest) ->
    exists gone, map (fun x => sc_when (snd x)) sent ++ map sc_when rest = releases (map sc_when q) gone l /\ list_sum gone = length sent) as X.
  { induction l as [|[now p d|a b c] l IH]; intros q sent rest; cbn [pacer_run].
    - intros E. injection E as <- <-. exists []. split; reflexivity.
    - intros E. destruct (IH _ _ _ E) as (gone & EG & LG). exists gone. cbn [releases]. rewrite EG, push_when. split; [reflexivity|exact LG].
    - destruct (send_action q a b c) as [[s1 q1]|] eqn:ES; [|discriminate]. destruct (pacer_run q1 l) as [[s2 q2]|] eqn:ER; [|discriminate].
      intros E. injection E as <- <-. destruct (IH _ _ _ ER) as (gone & EG & LG). exists (length s1 :: gone). split; [|rewrite app_length, <- LG; reflexivity]. cbn [releases].
      rewrite (send_action_spec _ _ _ _ _ _ ES), !map_app, <- app_assoc, EG, map_map. f_equal.
      + rewrite firstn_app, firstn_all2 by (rewrite map_length; lia). rewrite map_length, Nat.sub_diag. cbn. rewrite app_nil_r. reflexivity.
      + f_equal. rewrite skipn_app, skipn_all2 by (rewrite map_length; lia). rewrite map_length, Nat.sub_diag. reflexivity. }
  intros l sent rest E. exact (X l [] sent rest E).
Qed.

(** Nothing is due in an empty queue; otherwise the front is due exactly if its
    release time is less than a millisecond away, provided it is less than 24
    days away. *)
Lemma to_int_small n : - 2 ^ 31 <= n < 2 ^ 31 -> to_int n = n.
Proof. intros H. unfold to_int. rewrite Z.mod_small; lia. Qed.

Theorem C37_due :
  (forall now, ms_until_due [] now <> 0) /\
  (forall s r now, Z.abs (sc_when s - now) < 2 ^ 31 * 1000000 -> (ms_until_due (s :: r) now = 0 <-> sc_when s < now + 1000000)) /\
  (forall s r now, Z.abs (sc_when s - now) < 2 ^ 31 * 1000000 -> 0 <= ms_until_due (s :: r) now /\
     ms_until_due (s :: r) now * 1000000 <= Z.max 0 (sc_when s - now) < (ms_until_due (s :: r) now + 1) * 1000000).
Proof.
  split; [discriminate|]. split.
  - intros s r now H. unfold ms_until_due. pose proof (Z.quot_rem' (sc_when s - now) 1000000). pose proof (Z.rem_bound_abs (sc_when s - now) 1000000 ltac:(lia)).
    pose proof (Z.rem_sign_mul (sc_when s - now) 1000000 ltac:(lia)). rewrite to_int_small by nia.
    set (m := Z.quot _ _) in *. destruct (Z.ltb_spec m 0); split; intros; nia.
  - intros s r now H. unfold ms_until_due. pose proof (Z.quot_rem' (sc_when s - now) 1000000). pose proof (Z.rem_bound_abs (sc_when s - now) 1000000 ltac:(lia)).
    pose proof (Z.rem_sign_mul (sc_when s - now) 1000000 ltac:(lia)). rewrite to_int_small by nia.
    set (m := Z.quot _ _) in *. destruct (Z.ltb_spec m 0); split; nia.
Qed.

Lemma send_loop_time q : forall clock sent rest, send_loop q clock = (sent, rest) ->
  (forall s k, In s q -> Z.abs (sc_when s - clock k) < 2 ^ 31 * 1000000) -> Forall (fun x => sc_when (snd x) < fst x + 1000000) sent.
Proof.
  induction q as [|s r IH]; intros clock sent rest; cbn [send_loop].
  - intros E _. injection E as <- <-. constructor.
  - destruct (Z.eqb_spec (ms_until_due (s :: r) (clock O)) 0) as [D|D]; [|intros E _; injection E as <- <-; constructor].
    destruct (send_loop r _) as [x y] eqn:EL. intros E H. injection E as <- <-. constructor.
    + cbn. apply (proj1 (proj2 C37_due) s r (clock O)); [apply H; left; reflexivity|exact D].
    + eapply IH; [exact EL|]. intros t k I. exact (H t (S k) (or_intror I)).
Qed.

(** No datagram leaves a millisecond or more before its release time. *)
Theorem C37_not_early :
  forall q asked asserted clock sent rest, send_action q asked asserted clock = Some (sent, rest) ->
  (forall s k, In s q -> Z.abs (sc_when s - clock k) < 2 ^ 31 * 1000000) ->
  Forall (fun x => sc_when (snd x) < fst x + 1000000) sent.
Proof.
  intros q a b clock sent rest. unfold send_action. destruct (negb _); [intros E _; injection E as <- <-; constructor|]. destruct (negb _); [discriminate|].
  intros E. injection E as E. exact (send_loop_time q clock sent rest E).
Qed.

(** It may leave before its release time: the remaining time is rounded down
    to whole milliseconds. *)
Theorem C37_early_refuted :
  exists q asked asserted clock sent rest, send_action q asked asserted clock = Some (sent, rest) /\
  (forall s k, In s q -> Z.abs (sc_when s - clock k) < 2 ^ 31 * 1000000) /\ Exists (fun x => fst x < sc_when (snd x)) sent.
Proof.
  exists [mkScheduled 1999999 [1]], 1000000, 1000000, (fun _ => 1000000), [(1000000, mkScheduled 1999999 [1])], [].
  split; [vm_compute; reflexivity|]. split.
  - intros s k [<-|[]]. cbn. lia.
  - left. cbn. lia.
Qed.

(** What is due leaves: after a Send the front of the queue is not due at the
    last reading of the clock, and the assertion holds if the clock was not set back. *)
Theorem C37_progress :
  forall q asked asserted clock, asked <= asserted ->
  (forall s, In s q -> Z.abs (sc_when s - asked) < 2 ^ 31 * 1000000 /\ Z.abs (sc_when s - asserted) < 2 ^ 31 * 1000000) ->
  (forall s k, In s q -> Z.abs (sc_when s - clock k) < 2 ^ 31 * 1000000) ->
  exists sent rest, send_action q asked asserted clock = Some (sent, rest) /\
  match rest with
  | [] => True
  | s :: _ => asked + 1000000 <= sc_when s \/ clock (length sent) + 1000000 <= sc_when s
  end.
Proof.
  intros q asked asserted clock Hc HA HC. unfold send_action. destruct q as [|s r].
  { exists [], []. split; [reflexivity|]. exact I. }
  destruct (HA s (or_introl eq_refl)) as (A1 & A2). pose proof (proj1 (proj2 C37_due) s r asked A1) as D1. pose proof (proj1 (proj2 C37_due) s r asserted A2) as D2.
  destruct (Z.eqb_spec (ms_until_due (s :: r) asked) 0) as [E1|E1]; cbn [negb].
  - assert (ms_until_due (s :: r) asserted = 0) as -> by (apply D2; apply D1 in E1; lia). cbn [Z.eqb negb].
    destruct (send_loop (s :: r) clock) as [sent rest] eqn:EL. exists sent, rest. split; [reflexivity|]. clear - EL HC.
    revert clock sent rest EL HC. induction (s :: r) as [|t q IH]; intros clock sent rest; cbn [send_loop].
    + intros E _. injection E as <- <-. exact I.
    + destruct (Z.eqb_spec (ms_until_due (t :: q) (clock O)) 0) as [D|D].
      * destruct (send_loop q _) as [x y] eqn:EL. intros E H. injection E as <- <-. specialize (IH _ _ _ EL (fun u k J => H u (S k) (or_intror J))). exact IH.
      * intros E H. injection E as <- <-. right. cbn [length]. pose proof (proj1 (proj2 C37_due) t q (clock O) (H t O (or_introl eq_refl))). lia.
  - exists [], (s :: r). split; [reflexivity|]. left. lia.
Qed.

(** Three datagrams, the first leaves at once, the others in a second step. *)
Example C37_example :
  pacer_run [] [Push 5000000 [1] 700; Push 5000100 [2] 700; Send 5000200 5000300 (fun n => 5000400 + Z.of_nat n); Push 5000500 [3] 2000;
                Send 7700000 7700001 (fun n => 7700002 + Z.of_nat n)] =
  Some ([(5000400, mkScheduled 5000000 [1]); (5000401, mkScheduled 5700000 [2]); (7700002, mkScheduled 5000500 [3])], []).
Proof. vm_compute. reflexivity. Qed.
Example C37_example_waits : pacer_run [] [Push 0 [1] 0; Push 0 [2] 1500; Send 0 0 (fun _ => 0)] = Some ([(0, mkScheduled 0 [1])], [mkScheduled 1500000 [2]]).
Proof. vm_compute. reflexivity. Qed.

Print Assumptions C37_order.
Print Assumptions C37_release_times.
Print Assumptions C37_due.
Print Assumptions C37_not_early.
Print Assumptions C37_early_refuted.
Print Assumptions C37_progress.
