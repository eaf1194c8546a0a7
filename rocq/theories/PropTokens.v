(** Property C07: coefficient tokens. *)
From Verif Require Import Base BoolCoderModel ParserModel TokenModel Tables BoolEncProofs ParserProofs TokenProofs CodingSpec.

Lemma coeff_prob_ok tbl type b c i : Forall (fun p => 0 <= p <= 255) tbl -> prob_ok (coeff_prob tbl type b c i).
Proof.
  intros H. unfold coeff_prob, prob_ok. destruct (nth_in_or_default (Z.to_nat (((type * 8 + b) * 3 + c) * 11 + i)) tbl 0) as [HI|E].
  - rewrite Forall_forall in H. specialize (H _ HI). lia.
  - rewrite E. lia.
Qed.

(** C07. [ctx] is the number of non-zero neighbours; the parser starts from a
    fresh block (all zero); the flag returned with the coefficients is
    has_nonzero. A block after a Y2 block has no DC coefficient of its own. *)
Theorem C07_token_round_trip :
  forall (tbl : list Z) (type ctx : Z) (coefs : list Z),
    Forall (fun p => 0 <= p <= 255) tbl ->
    length coefs = 16%nat ->
    Forall (fun c => -2114 <= c <= 2114) coefs ->
    (type = Y_after_Y2 -> nth 0 coefs 0 = 0) ->
    0 <= ctx <= 2 ->
    exists evs,
      serialize_tokens (coeff_prob tbl type) type ctx coefs = Some evs /\
      reads_back (parse_tokens (coeff_prob tbl type) type ctx (repeat 0 16) false) evs
                 (coefs, existsb (fun c => negb (c =? 0)) coefs).
Proof.
  intros tbl type ctx coefs HT HL HC HY HX.
  destruct (parses_block (coeff_prob tbl type) type ctx coefs) as (evs & E & O & P); auto.
  { eapply Forall_impl; [|exact HC]. intros c Hc. cbn beta in Hc. lia. }
  exists evs. split; [exact E|]. apply parses_reads_back; [|exact P].
  apply O. intros. apply coeff_prob_ok. exact HT.
Qed.

(** Coefficients that the format cannot express make the serialiser throw;
    it never writes something else instead. *)
Theorem C07_too_large_rejected :
  forall tbl type ctx coefs k,
    length coefs = 16%nat -> (k < 16)%nat -> (type = Y_after_Y2 -> k <> 0%nat) ->
    2114 < Z.abs (nth k coefs 0) ->
    serialize_tokens (coeff_prob tbl type) type ctx coefs = None.
Proof. intros tbl type ctx coefs k HL Hk HT HC. eapply serialize_tokens_large; eassumption. Qed.

(** Whatever bits the decoder is given, the block it returns satisfies the
    hypotheses of the round trip, so every decoded block can be written again
    and its has-nonzero flag is right. *)
Theorem C07_decoded_block_is_encodable :
  forall prob type ctx d,
    let '(coefs, nz) := fst (parse_tokens prob type ctx (repeat 0 16) false d) in
    length coefs = 16%nat /\ Forall (fun c => -2114 <= c <= 2114) coefs /\
    (type = Y_after_Y2 -> nth 0 coefs 0 = 0) /\
    nz = existsb (fun c => negb (c =? 0)) coefs.
Proof.
  intros prob type ctx d. pose proof (parse_tokens_ok prob type ctx d) as H.
  destruct (fst (parse_tokens prob type ctx (repeat 0 16) false d)) as [coefs nz].
  destruct H as (A & B & C & D). cbn [fst snd] in *. repeat split; auto.
  eapply Forall_impl; [|exact B]. intros c Hc. cbn beta in Hc. lia.
Qed.

Example C07_example :
  let coefs := [0; -1; 2; 3; 4; -5; 6; 7; 10; 11; 18; 34; -66; 2114; 0; 0] in
  Forall (fun p => 0 <= p <= 255) k_default_coeff_probs /\
  length coefs = 16%nat /\ Forall (fun c => -2114 <= c <= 2114) coefs /\
  (Y_after_Y2 = Y_after_Y2 -> nth 0 coefs 0 = 0) /\
  exists evs, serialize_tokens (coeff_prob k_default_coeff_probs Y_after_Y2) Y_after_Y2 1 coefs = Some evs /\
              length evs = 125%nat.
Proof.
  cbv zeta. split.
  { apply Forall_forall. intros x Hx.
    assert (E : forallb (fun p => (0 <=? p) && (p <=? 255)) k_default_coeff_probs = true) by (vm_compute; reflexivity).
    rewrite forallb_forall in E. specialize (E x Hx). lia. }
  split; [reflexivity|]. split; [repeat constructor; lia|]. split; [reflexivity|].
  eexists. split; vm_compute; reflexivity.
Qed.

Print Assumptions C07_token_round_trip.
Print Assumptions C07_too_large_rejected.
Print Assumptions C07_decoded_block_is_encodable.
