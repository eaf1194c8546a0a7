(** What "a parser reads back what a writer wrote" means, in terms of the
    boolean coder's bytes only: the events of the field may be preceded and
    followed by arbitrary other events in the same partition; after the
    preceding events have been read, the parser returns the value and leaves
    the decoder where the following events are read back correctly. *)
From Verif Require Import Base BoolCoderModel ParserModel BoolEncProofs BoolCoderProofs ParserProofs.

Definition legal (ev : bool * Z) : Prop := 0 <= snd ev <= 255.

Definition reads_back {A} (m : bdec -> A * bdec) (evs : list (bool * Z)) (x : A) : Prop :=
  Forall legal evs /\
  forall (before after : list (bool * Z)) (complete : bool),
    Forall legal before -> Forall legal after ->
    exists bytes,
      bool_encode (before ++ evs ++ after) = Some bytes /\
      let '(bits, d) := bgets (map snd before) (bdec_init complete bytes) in
      let '(y, d') := m d in
      bits = map fst before /\ y = x /\ fst (bgets (map snd after) d') = map fst after.

Lemma legal_ok evs : Forall legal evs <-> Forall event_ok evs.
Proof. split; apply Forall_impl; unfold legal, event_ok, prob_ok; intros; lia. Qed.

Lemma ready_app_bgets a : forall b d, ready d (a ++ b) ->
  fst (bgets (map snd a) d) = map fst a /\ ready (snd (bgets (map snd a) d)) b.
Proof.
  induction a as [|[x p] a IH]; intros b d H; cbn [map bgets app snd fst] in *; [auto|].
  cbn [ready] in H. destruct H as [H1 H2]. destruct (bget p d) as [y d1]. cbn [fst snd] in *.
  destruct (IH b d1 H2) as [E R]. destruct (bgets (map snd a) d1) as [bs d2]. cbn [fst snd] in *.
  subst. auto.
Qed.

Lemma parses_reads_back {A} (m : dec A) evs x : Forall event_ok evs -> parses m evs x -> reads_back m evs x.
Proof.
  intros HE HP. split; [apply legal_ok; exact HE|]. intros before after complete HB HA.
  destruct (bool_coder_ready complete (before ++ evs ++ after)) as (bs & E & _ & R).
  { apply Forall_app. split; [apply legal_ok; exact HB|]. apply Forall_app. split; [exact HE|apply legal_ok; exact HA]. }
  exists bs. split; [exact E|].
  destruct (ready_app_bgets before _ _ R) as [E1 R1].
  destruct (bgets (map snd before) (bdec_init complete bs)) as [bits d]. cbn [fst snd] in *.
  destruct (HP d after R1) as (d' & EM & R2). rewrite EM. split; [exact E1|]. split; [reflexivity|].
  apply ready_bgets. exact R2.
Qed.
