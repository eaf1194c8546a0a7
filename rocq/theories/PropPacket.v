(** Properties C18 to C21: datagrams, fragments and acknowledgements. *)
From Verif Require Import Base ChunkModel ChunkProofs PropChunk ContainerProofs PacketModel.

Definition at_ (l : list Z) (o n : nat) : list Z := firstn n (skipn o l).

Lemma put16_spec v : put16 v = le_bytes 2 v.
Proof. reflexivity. Qed.
Lemma put32_spec v : put32 v = le_bytes 4 v.
Proof. unfold put32. cbn [le_bytes]. rewrite !Z.div_div by lia. reflexivity. Qed.

Lemma le_bytes_value n l : bytes_ok l -> length l = n -> le_bytes n (le_value l) = l.
Proof.
  intros B L. apply le_value_inj; [apply le_bytes_ok|exact B|rewrite le_bytes_length; congruence|].
  rewrite le_value_bytes. apply Z.mod_small. pose proof (le_value_range l B) as R. unfold zlen in R. rewrite L in R. exact R.
Qed.

Lemma field_read c o n k : chunk_ok c -> 0 <= o < 2 ^ 63 -> n = Z.of_nat k -> (k <= 8)%nat ->
  from_chunk (let! d := csub c o n in extract k d) = if c_size c <? o + n then Err PRange else Ok (le_value (at_ (cbytes c) (Z.to_nat o) k)).
Proof.
  intros C Ho -> Hk. destruct (Z.ltb_spec (c_size c) (o + Z.of_nat k)).
  - rewrite csub_range by lia. reflexivity.
  - rewrite csub_spec by (try assumption; lia). cbn [rbind]. rewrite extract_spec by (apply csub_ok; try assumption; lia).
    cbn [c_size]. rewrite Z.ltb_irrefl. rewrite cbytes_sub by (try assumption; lia). cbn [from_chunk]. unfold at_.
    rewrite Nat2Z.id, firstn_firstn, Nat.min_id. reflexivity.
Qed.

(** ** Packets *)

Definition packet_fits (p : packet) : Prop :=
  0 <= pk_connection p < 2 ^ 16 /\ 0 <= pk_source p < 2 ^ 32 /\ 0 <= pk_target p < 2 ^ 32 /\ 0 <= pk_frame p < 2 ^ 32 /\
  0 <= pk_fragment p < pk_count p /\ pk_count p < 2 ^ 16 /\ 0 <= pk_time p < 2 ^ 32 /\ pk_payload p <> [] /\ pk_valid p = true.

(** The 22 bytes before the payload. *)
Definition wire_head (connection source target frame fragment count time : Z) : list Z :=
  le_bytes 2 connection ++ le_bytes 4 source ++ le_bytes 4 target ++ le_bytes 4 frame ++ le_bytes 2 fragment ++ le_bytes 2 count ++ le_bytes 4 time.

Lemma wire_head_length a b c d e f g : zlen (wire_head a b c d e f g) = 22.
Proof. reflexivity. Qed.

Lemma parse_packet_cases c : chunk_ok c ->
  parse_packet c =
    let l := cbytes c in
    if c_size c <? 22 then Err PRange
    else if le_value (at_ l 14 2) >=? le_value (at_ l 16 2) then Err PInvalid
    else match skipn 22 l with
         | [] => Err PInvalid
         | payload => Ok (mkPacket true (le_value (at_ l 0 2)) (le_value (at_ l 2 4)) (le_value (at_ l 6 4)) (le_value (at_ l 10 4))
                                   (le_value (at_ l 14 2)) (le_value (at_ l 16 2)) (le_value (at_ l 18 4)) payload)
         end.
Proof.
  intros C. unfold parse_packet, le16, le32. cbv zeta.
  rewrite (field_read c 0 2 2), (field_read c 2 4 4), (field_read c 6 4 4), (field_read c 10 4 4), (field_read c 14 2 2), (field_read c 16 2 2), (field_read c 18 4 4) by (try assumption; lia).
  destruct (Z.ltb_spec (c_size c) 22) as [L|G].
  - destruct (c_size c <? 0 + 2); [reflexivity|]. cbn [rbind]. destruct (c_size c <? 2 + 4); [reflexivity|]. cbn [rbind]. destruct (c_size c <? 6 + 4); [reflexivity|]. cbn [rbind].
    destruct (c_size c <? 10 + 4); [reflexivity|]. cbn [rbind]. destruct (c_size c <? 14 + 2); [reflexivity|]. cbn [rbind]. destruct (c_size c <? 16 + 2); [reflexivity|]. cbn [rbind].
    destruct (Z.ltb_spec (c_size c) (18 + 4)); [reflexivity|lia].
  - assert (forall k, k <= 22 -> (c_size c <? k) = false) as F by (intros; lia). rewrite !F by lia. cbn [rbind].
    rewrite ctail_spec by (try assumption; lia). cbn [rbind]. rewrite to_string_spec by (apply csub_ok; try assumption; lia).
    rewrite cbytes_tail by (try assumption; lia). cbn [from_chunk rbind]. change (Z.to_nat 22) with 22%nat. destruct (skipn 22 (cbytes c)); reflexivity.
Qed.

Lemma value_of_bytes n v : 0 <= v < 2 ^ (8 * Z.of_nat n) -> le_value (le_bytes n v) = v.
Proof. intros H. rewrite le_value_bytes. apply Z.mod_small, H. Qed.

(** Every packet survives the network. *)
Theorem C18_round_trip :
  forall p, packet_fits p ->
  exists s, packet_string p = Ok s /\ s = wire_head (pk_connection p) (pk_source p) (pk_target p) (pk_frame p) (pk_fragment p) (pk_count p) (pk_time p) ++ pk_payload p /\
    forall c, chunk_ok c -> cbytes c = s -> parse_packet c = Ok p.
Proof.
  intros p F. pose proof F as (H1 & H2 & H3 & H4 & H5 & H6 & H7 & H8 & H9).
  unfold packet_string. destruct (Z.ltb_spec 0 (pk_count p)); [|lia]. cbn [negb]. eexists. split; [reflexivity|].
  rewrite !put16_spec, !put32_spec. split; [unfold wire_head; rewrite <- !app_assoc; reflexivity|]. intros c C E.
  rewrite (parse_packet_cases c C). cbv zeta. pose proof (zlen_cbytes c C) as LC. rewrite E.
  assert (22 <= c_size c) as S.
  { rewrite <- LC, E. change (22 <= zlen (wire_head (pk_connection p) (pk_source p) (pk_target p) (pk_frame p) (pk_fragment p) (pk_count p) (pk_time p) ++ pk_payload p)).
    rewrite zlen_app, wire_head_length. pose proof (zlen_nonneg (pk_payload p)). lia. }
  destruct (Z.ltb_spec (c_size c) 22); [lia|].
  destruct p as [va co so ta fr fg ct ti pa]. cbn [pk_valid pk_connection pk_source pk_target pk_frame pk_fragment pk_count pk_time pk_payload] in *.
  set (l := le_bytes 2 co ++ _).
  change (at_ l 0 2) with (le_bytes 2 co). change (at_ l 2 4) with (le_bytes 4 so). change (at_ l 6 4) with (le_bytes 4 ta). change (at_ l 10 4) with (le_bytes 4 fr).
  change (at_ l 14 2) with (le_bytes 2 fg). change (at_ l 16 2) with (le_bytes 2 ct). change (at_ l 18 4) with (le_bytes 4 ti). change (skipn 22 l) with pa.
  rewrite !value_of_bytes by (cbn; lia). destruct (Z.geb_spec fg ct); [lia|]. destruct pa; [contradiction|]. subst va. reflexivity.
Qed.

(** A datagram is accepted exactly if it is the serialisation of a packet
    whose fields are valid. *)
Theorem C18_datagrams :
  forall c, chunk_ok c -> bytes_ok (cbytes c) ->
  match parse_packet c with
  | Ok p => packet_fits p /\ packet_string p = Ok (cbytes c)
  | Err PRange => c_size c < 22
  | Err PInvalid => c_size c = 22 \/ 22 < c_size c /\ le_value (firstn 2 (skipn 14 (cbytes c))) >= le_value (firstn 2 (skipn 16 (cbytes c)))
  | Err _ => False
  end.
Proof.
  intros c C B. rewrite (parse_packet_cases c C). cbv zeta. pose proof (zlen_cbytes c C) as LC.
  destruct (Z.ltb_spec (c_size c) 22); [assumption|]. set (l := cbytes c) in *.
  destruct (Z.geb_spec (le_value (at_ l 14 2)) (le_value (at_ l 16 2))).
  { destruct (Z.eq_dec (c_size c) 22); [left; assumption|right]. unfold at_ in *. lia. }
  destruct (skipn 22 l) as [|x pa] eqn:EP.
  { left. apply (f_equal (@length Z)) in EP. rewrite skipn_length in EP. unfold zlen in LC. cbn in EP. lia. }
  assert (forall o n, (o + n <= 22)%nat -> 0 <= le_value (at_ l o n) < 2 ^ (8 * Z.of_nat n) /\ le_bytes n (le_value (at_ l o n)) = at_ l o n) as R.
  { intros o n Hon. assert (bytes_ok (at_ l o n)) as Ba by (unfold at_; apply bytes_ok_sub, B).
    assert (length (at_ l o n) = n) as La by (unfold at_; rewrite firstn_length, skipn_length; unfold zlen in LC; lia).
    split; [|apply le_bytes_value; assumption]. pose proof (le_value_range _ Ba) as Rg. unfold zlen in Rg. rewrite La in Rg. exact Rg. }
  split.
  - pose proof (proj1 (R 0%nat 2%nat ltac:(lia))). pose proof (proj1 (R 2%nat 4%nat ltac:(lia))). pose proof (proj1 (R 6%nat 4%nat ltac:(lia))). pose proof (proj1 (R 10%nat 4%nat ltac:(lia))).
    pose proof (proj1 (R 14%nat 2%nat ltac:(lia))). pose proof (proj1 (R 16%nat 2%nat ltac:(lia))). pose proof (proj1 (R 18%nat 4%nat ltac:(lia))).
    unfold packet_fits. cbn [pk_valid pk_connection pk_source pk_target pk_frame pk_fragment pk_count pk_time pk_payload].
    cbn [Z.of_nat Pos.of_succ_nat Pos.succ Z.mul Pos.mul] in *. repeat split; try lia; try discriminate; try assumption.
  - unfold packet_string. cbn [pk_valid pk_connection pk_source pk_target pk_frame pk_fragment pk_count pk_time pk_payload].
    pose proof (proj1 (R 14%nat 2%nat ltac:(lia))). destruct (Z.ltb_spec 0 (le_value (at_ l 16 2))); [|lia]. cbn [negb]. f_equal.
    rewrite !put32_spec. change put16 with (le_bytes 2).
    rewrite (proj2 (R 0 2 ltac:(lia))%nat), (proj2 (R 2 4 ltac:(lia))%nat), (proj2 (R 6 4 ltac:(lia))%nat), (proj2 (R 10 4 ltac:(lia))%nat), (proj2 (R 14 2 ltac:(lia))%nat), (proj2 (R 16 2 ltac:(lia))%nat), (proj2 (R 18 4 ltac:(lia))%nat). rewrite <- EP.
    assert (forall (m : list Z) a b k, (k = a + b)%nat -> firstn a (skipn b m) ++ skipn k m = skipn b m) as J.
    { intros m a b k ->. rewrite (Nat.add_comm a b), <- skipn_skipn'. apply firstn_skipn. }
    unfold at_. rewrite !J by reflexivity. reflexivity.
Qed.

(** ** C19: splitting *)

(** How many fragments a frame needs, and what is in them. *)
Definition pieces (frame : list Z) : nat := Z.to_nat ((zlen frame + 1399) / 1400).
Definition piece (frame : list Z) (i : nat) : list Z := firstn (Z.to_nat 1400) (skipn (Z.to_nat (1400 * Z.of_nat i)) frame).

Lemma pieces_spec frame : zlen frame <= 1400 * Z.of_nat (pieces frame) /\ (pieces frame = 0%nat \/ 1400 * (Z.of_nat (pieces frame) - 1) < zlen frame).
Proof. unfold pieces. pose proof (zlen_nonneg frame). lia. Qed.

Lemma piece_length frame i : (i < pieces frame)%nat -> zlen (piece frame i) = Z.min 1400 (zlen frame - 1400 * Z.of_nat i) /\ 1 <= zlen (piece frame i).
Proof.
  intros H. pose proof (pieces_spec frame) as (P1 & P2). pose proof (zlen_nonneg frame).
  assert (zlen (piece frame i) = Z.min 1400 (zlen frame - 1400 * Z.of_nat i)) as E.
  { unfold piece, zlen in *. rewrite firstn_length, skipn_length. lia. }
  split; [exact E|]. rewrite E. lia.
Qed.

Lemma firstn_more {A} : forall a b (l : list A), firstn a l ++ firstn b (skipn a l) = firstn (a + b) l.
Proof. induction a as [|a IH]; intros b l; [reflexivity|]. destruct l as [|x l]; [rewrite !firstn_nil; reflexivity|]. cbn [firstn skipn Nat.add app]. rewrite IH. reflexivity. Qed.

Lemma pieces_prefix frame k : concat (map (piece frame) (seq 0 k)) = firstn (Z.to_nat (1400 * Z.of_nat k)) frame.
Proof.
  induction k as [|k IH]; [reflexivity|].
  rewrite seq_S, map_app, concat_app, IH. cbn [map concat Nat.add]. rewrite app_nil_r. unfold piece. rewrite firstn_more. f_equal. lia.
Qed.

Section Split.
  Variables (connection source target no : Z) (frame : list Z).

  (** Fragment [i] before the count is known. *)
  Definition raw (i : nat) : packet := mkPacket true connection source target no (Z.of_nat i) 0 0 (piece frame i).

  Lemma outgoing_packet_spec i : (i < pieces frame)%nat -> Z.of_nat i < 2 ^ 16 ->
    outgoing_packet frame connection source target no (Z.of_nat i) 0 = Ok (raw i, Z.min (1400 * Z.of_nat (S i)) (zlen frame)).
  Proof.
    intros H Hi. destruct (piece_length frame i H) as (L & L1). unfold outgoing_packet. pose proof (zlen_nonneg frame).
    destruct (Z.eqb_spec (zlen frame) 0); [lia|]. unfold MAXIMUM_PAYLOAD, wrap. rewrite Z.mod_small by lia.
    destruct (Z.ltb_spec (1400 * Z.of_nat i) (zlen frame)); [|lia]. cbn [negb].
    destruct (Z.leb_spec (1400 * Z.of_nat i + Z.min (zlen frame - 1400 * Z.of_nat i) 1400) (zlen frame)); [|lia]. cbn [negb].
    assert (firstn (Z.to_nat (Z.min (zlen frame - 1400 * Z.of_nat i) 1400)) (skipn (Z.to_nat (1400 * Z.of_nat i)) frame) = piece frame i) as ->.
    { unfold piece. set (q := skipn (Z.to_nat (1400 * Z.of_nat i)) frame).
      assert (zlen q = zlen frame - 1400 * Z.of_nat i) as LQ by (unfold q, zlen in *; rewrite skipn_length; lia). rewrite <- LQ.
      destruct (Z.min_spec (zlen q) 1400) as [(A & ->)|(A & ->)]; [|reflexivity]. rewrite !firstn_all2 by (unfold zlen in *; lia). reflexivity. }
    unfold raw. do 2 f_equal. lia.
  Qed.

  Lemma fragment_loop_spec : Z.of_nat (pieces frame) <= 65536 -> forall k i fuel, (i + k = pieces frame)%nat -> (k <= fuel)%nat ->
    fragment_loop fuel frame connection source target no (wrap 16 (Z.of_nat i)) (Z.min (1400 * Z.of_nat i) (zlen frame)) = Ok (map raw (seq i k)).
  Proof.
    intros B. induction k as [|k IH]; intros i fuel H F; pose proof (pieces_spec frame) as (P1 & P2); pose proof (zlen_nonneg frame).
    - assert (Z.min (1400 * Z.of_nat i) (zlen frame) = zlen frame) as -> by lia.
      destruct fuel; cbn [fragment_loop]; rewrite Z.ltb_irrefl; reflexivity.
    - destruct (piece_length frame i ltac:(lia)) as (L & L1). destruct fuel as [|fuel]; [lia|]. cbn [fragment_loop].
      destruct (Z.ltb_spec (Z.min (1400 * Z.of_nat i) (zlen frame)) (zlen frame)); [|lia].
      assert (wrap 16 (Z.of_nat i) = Z.of_nat i) as -> by (unfold wrap; apply Z.mod_small; lia).
      rewrite outgoing_packet_spec by lia. cbn [rbind]. replace (Z.of_nat i + 1) with (Z.of_nat (S i)) by lia.
      rewrite (IH (S i) fuel) by lia. cbn [rbind seq map]. reflexivity.
  Qed.

  (** The fragments that are sent. *)
  Definition fragment (time : Z) (i : nat) : packet :=
    mkPacket true connection source target no (Z.of_nat i) (Z.of_nat (pieces frame)) (if Nat.eqb i 0 then time else 0) (piece frame i).

  Lemma set_counts_spec x l : Forall (fun p => pk_fragment p < x) l ->
    set_counts l x = Ok (map (fun p => mkPacket (pk_valid p) (pk_connection p) (pk_source p) (pk_target p) (pk_frame p) (pk_fragment p) x (pk_time p) (pk_payload p)) l).
  Proof.
    induction 1 as [|p l H F IH]; [reflexivity|]. cbn [set_counts set_count pk_fragment pk_count]. unfold set_count. cbn [pk_fragment pk_count].
    destruct (Z.ltb_spec (pk_fragment p) x); [|lia]. cbn [rbind]. rewrite IH. reflexivity.
  Qed.

  Lemma outgoing_spec time fuel : frame <> [] -> Z.of_nat (pieces frame) <= 65535 -> (pieces frame <= fuel)%nat ->
    outgoing fuel connection source target no time frame =
    Ok (mkFragmented connection source target no (Z.of_nat (pieces frame)) (map (fragment time) (seq 0 (pieces frame))) 0).
  Proof.
    intros NE B F. unfold outgoing. pose proof (fragment_loop_spec ltac:(lia) (pieces frame) 0 fuel ltac:(lia) F) as E.
    change (wrap 16 (Z.of_nat 0)) with 0 in E. replace (Z.min (1400 * Z.of_nat 0) (zlen frame)) with 0 in E by (pose proof (zlen_nonneg frame); lia).
    rewrite E. cbn [rbind]. pose proof (pieces_spec frame) as (P1 & P2).
    assert (1 <= zlen frame) by (destruct frame; [congruence|rewrite zlen_cons; pose proof (zlen_nonneg l); lia]).
    destruct (pieces frame) as [|n] eqn:EN; [lia|]. cbn [seq map].
    set (l := set_time (raw 0) time :: map raw (seq 1 n)). assert (zlen l = Z.of_nat (S n)) as LL by (unfold l, zlen; cbn [length]; rewrite map_length, seq_length; reflexivity).
    rewrite LL. unfold wrap. rewrite Z.mod_small by lia. rewrite set_counts_spec.
    - cbn [rbind]. do 2 f_equal. unfold l, fragment. cbn [map]. f_equal; [rewrite EN; reflexivity|].
      rewrite map_map. apply map_ext_in. intros i Hi. apply in_seq in Hi. destruct i as [|i]; [lia|]. rewrite EN. reflexivity.
    - unfold l. constructor; [cbn; lia|]. apply Forall_forall. intros p Hp. apply in_map_iff in Hp. destruct Hp as (i & <- & Hi). apply in_seq in Hi. cbn [raw pk_fragment]. lia.
  Qed.

  (** More than 65536 fragments: the loop does not end. *)
  Lemma fragment_loop_endless fuel : zlen frame < 2 ^ 63 -> 1400 * 65536 < zlen frame -> forall f next, 0 <= f < 2 ^ 16 -> next < zlen frame ->
    fragment_loop fuel frame connection source target no f next = Err PUnfinished.
  Proof.
    intros LF B. induction fuel as [|fuel IH]; intros f next Hf Hn; cbn [fragment_loop]; destruct (Z.ltb_spec next (zlen frame)); try lia; [reflexivity|].
    unfold outgoing_packet. destruct (Z.eqb_spec (zlen frame) 0); [lia|]. unfold MAXIMUM_PAYLOAD, wrap. rewrite (Z.mod_small (1400 * f)) by lia.
    destruct (Z.ltb_spec (1400 * f) (zlen frame)); [|lia]. cbn [negb]. destruct (Z.leb_spec (1400 * f + Z.min (zlen frame - 1400 * f) 1400) (zlen frame)); [|lia]. cbn [negb rbind].
    rewrite IH; [reflexivity| |lia]. apply Z.mod_pos_bound. lia.
  Qed.
End Split.

(** ** Reassembly *)

Definition missing (l : list packet) : Z := zlen (filter (fun p => negb (pk_valid p)) l).
Definition assembling (f : fragmented) : Prop :=
  zlen (fr_fragments f) = fr_count f /\ fr_remaining f = missing (fr_fragments f) /\ fr_count f < 2 ^ 16.

Lemma missing_range l : 0 <= missing l <= zlen l.
Proof. unfold missing, zlen. induction l as [|p l IH]; [cbn; lia|]. cbn [filter length]. destruct (negb (pk_valid p)); cbn [length]; lia. Qed.

Lemma replace_length l : forall n p, length (replace_nth l n p) = length l.
Proof. induction l as [|x l IH]; intros [|n] p; cbn; [reflexivity|reflexivity|reflexivity|]. f_equal. apply IH. Qed.
Lemma replace_nth_error l : forall n p i, nth_error (replace_nth l n p) i = if Nat.eqb i n then match nth_error l n with Some _ => Some p | None => None end else nth_error l i.
Proof.
  induction l as [|x l IH]; intros [|n] p [|i]; cbn [replace_nth nth_error Nat.eqb]; try reflexivity.
  - destruct (Nat.eqb i n); reflexivity.
  - apply IH.
Qed.
Lemma replace_missing l : forall n p old, nth_error l n = Some old -> pk_valid old = false -> pk_valid p = true -> missing (replace_nth l n p) = missing l - 1.
Proof.
  unfold missing. induction l as [|x l IH]; intros [|n] p old E V P; try discriminate.
  - injection E as ->. cbn [replace_nth filter]. rewrite V, P. cbn [negb]. rewrite zlen_cons. lia.
  - cbn [nth_error replace_nth filter] in *. specialize (IH n p old E V P). destruct (negb (pk_valid x)); [rewrite !zlen_cons|]; lia.
Qed.
Lemma missing_positive l n old : nth_error l n = Some old -> pk_valid old = false -> 1 <= missing l.
Proof.
  intros E V. unfold missing. apply nth_error_In in E. assert (In old (filter (fun p => negb (pk_valid p)) l)) as I by (apply filter_In; rewrite V; auto).
  destruct (filter _ l) as [|y m]; [destruct I|]. rewrite zlen_cons. pose proof (zlen_nonneg m). lia.
Qed.

(** Any packet at all: the fragments are never accessed out of range, the
    count of missing fragments stays right, and no fragment is ever
    overwritten. *)
Theorem C19_any_packet :
  forall f p, assembling f -> pk_valid p = true -> 0 <= pk_fragment p ->
  match add_packet f p with
  | Ok g => assembling g /\ sane f p = true /\
            (forall i, nth_error (fr_fragments g) i =
               if Nat.eqb i (Z.to_nat (pk_fragment p)) then (match nth_error (fr_fragments f) i with Some q => Some (if pk_valid q then q else p) | None => None end)
               else nth_error (fr_fragments f) i)
  | Err e => e = PInvalid /\ sane f p = false
  end.
Proof.
  intros f p (A1 & A2 & A3) V H. unfold add_packet. destruct (sane f p) eqn:S; cbn [negb]; [|auto].
  assert (pk_fragment p < fr_count f) as L by (unfold sane in S; rewrite !Bool.andb_true_iff in S; lia).
  destruct (nth_error (fr_fragments f) (Z.to_nat (pk_fragment p))) as [old|] eqn:E; [|apply nth_error_None in E; unfold zlen in A1; lia].
  destruct (pk_valid old) eqn:VO.
  - split; [split; auto|]. split; [reflexivity|]. intros i. destruct (Nat.eqb_spec i (Z.to_nat (pk_fragment p))) as [->|]; [|reflexivity]. rewrite E, VO. reflexivity.
  - split; [|split; [reflexivity|]].
    + unfold assembling. cbn [fr_fragments fr_count fr_remaining]. split; [unfold zlen in *; rewrite replace_length; exact A1|]. split; [|exact A3].
      rewrite (replace_missing _ _ p old E VO V), A2. pose proof (missing_positive _ _ _ E VO). pose proof (missing_range (fr_fragments f)). unfold wrap. apply Z.mod_small. lia.
    + intros i. cbn [fr_fragments]. rewrite replace_nth_error. destruct (Nat.eqb_spec i (Z.to_nat (pk_fragment p))) as [->|]; [|reflexivity]. rewrite E, VO. reflexivity.
Qed.

Lemma missing_repeat n : missing (repeat empty_packet n) = Z.of_nat n.
Proof. unfold missing. induction n as [|n IH]; [reflexivity|]. cbn [repeat filter empty_packet pk_valid negb]. rewrite zlen_cons, IH. lia. Qed.

Theorem C19_first_packet :
  forall connection p, packet_fits p ->
  match incoming connection p with
  | Ok g => assembling g /\ pk_connection p = connection /\ fr_connection g = connection /\ fr_source g = pk_source p /\ fr_target g = pk_target p /\ fr_frame g = pk_frame p /\ fr_count g = pk_count p /\
            (forall i, nth_error (fr_fragments g) i = if Nat.ltb i (Z.to_nat (pk_count p)) then Some (if Nat.eqb i (Z.to_nat (pk_fragment p)) then p else empty_packet) else None)
  | Err e => e = PInvalid /\ pk_connection p <> connection
  end.
Proof.
  intros connection p F. pose proof F as (H1 & H2 & H3 & H4 & H5 & H6 & H7 & H8 & H9). unfold incoming.
  set (f := mkFragmented _ _ _ _ _ _ _). assert (assembling f) as A.
  { unfold f, assembling. cbn [fr_fragments fr_count fr_remaining]. unfold zlen. rewrite repeat_length, missing_repeat. lia. }
  assert (sane f p = (pk_connection p =? connection)) as S.
  { unfold sane, f. cbn [fr_connection fr_source fr_target fr_frame fr_count]. rewrite !Z.eqb_refl. destruct (Z.ltb_spec (pk_fragment p) (pk_count p)); [|lia]. rewrite !Bool.andb_true_r. reflexivity. }
  rewrite S. destruct (Z.eqb_spec (pk_connection p) connection) as [EC|NC]; cbn [negb]; [|auto].
  pose proof (C19_any_packet f p A H9 ltac:(lia)) as P. destruct (add_packet f p) as [g|e] eqn:EA.
  - destruct P as (P1 & _ & P2). split; [exact P1|]. split; [exact EC|].
    assert (fr_connection g = fr_connection f /\ fr_source g = fr_source f /\ fr_target g = fr_target f /\ fr_frame g = fr_frame f /\ fr_count g = fr_count f) as (G1 & G2 & G3 & G4 & G5).
    { unfold add_packet in EA. destruct (negb (sane f p)); [discriminate|]. destruct (nth_error _ _) as [old|]; [|discriminate]. destruct (pk_valid old); injection EA as <-; repeat split. }
    rewrite G1, G2, G3, G4, G5. repeat (split; [reflexivity|]). intros i. rewrite P2. unfold f. cbn [fr_fragments].
    assert (nth_error (repeat empty_packet (Z.to_nat (pk_count p))) i = if Nat.ltb i (Z.to_nat (pk_count p)) then Some empty_packet else None) as ->.
    { destruct (Nat.ltb_spec i (Z.to_nat (pk_count p))) as [L|L]; [apply nth_error_repeat, L|apply nth_error_None; rewrite repeat_length; exact L]. }
    destruct (Nat.eqb i (Z.to_nat (pk_fragment p))), (Nat.ltb i (Z.to_nat (pk_count p))); reflexivity.
  - destruct P as (-> & P). exfalso. congruence.
Qed.

(** ** Any delivery of the fragments of a frame *)

(** The receiver's side: the datagrams of one frame, in the order of their
    arrival. *)
Fixpoint receive_more (f : fragmented) (l : list (list Z)) : res packet_error fragmented :=
  match l with
  | [] => Ok f
  | d :: r => let! p := parse_packet (chunk_of d) in let! g := add_packet f p in receive_more g r
  end.
Definition receive (connection : Z) (d : list Z) (l : list (list Z)) : res packet_error fragmented :=
  let! p := parse_packet (chunk_of d) in let! f := incoming connection p in receive_more f l.

(** What is there after the fragments in [ds] have arrived. *)
Definition holding (ps : list packet) (ds : list nat) (g : fragmented) : Prop :=
  assembling g /\ fr_count g = zlen ps /\
  forall i p, nth_error ps i = Some p -> exists q, nth_error (fr_fragments g) i = Some q /\ (In i ds -> q = p) /\ (~ In i ds -> q = empty_packet).

Lemma nth_error_ext_packet : forall l l' : list packet, (forall k, nth_error l k = nth_error l' k) -> l = l'.
Proof.
  induction l as [|x l IH]; intros [|y l'] H; [reflexivity|discriminate (H 0%nat)|discriminate (H 0%nat)|].
  pose proof (H 0%nat) as H0. injection H0 as ->. f_equal. apply IH. intros k. exact (H (S k)).
Qed.

Lemma missing_zero l : missing l = 0 <-> Forall (fun p => pk_valid p = true) l.
Proof.
  unfold missing. induction l as [|p l IH]; [split; [constructor|reflexivity]|]. cbn [filter]. destruct (pk_valid p) eqn:V; cbn [negb].
  - rewrite IH. split; [constructor; assumption|intros H; inversion H; assumption].
  - rewrite zlen_cons. pose proof (zlen_nonneg (filter (fun p => negb (pk_valid p)) l)). split; [lia|]. intros H1. inversion H1; congruence.
Qed.

Lemma holding_complete ps ds g : Forall (fun p => pk_valid p = true) ps -> holding ps ds g ->
  (complete g = true <-> forall i, (i < length ps)%nat -> In i ds) /\
  (complete g = true -> whole g = Ok (concat (map pk_payload ps)) /\ packets g = Ok ps) /\
  exists k, (k <= length ps)%nat /\ (forall i, (i < k)%nat -> In i ds) /\ ((k < length ps)%nat -> ~ In k ds) /\
    partial_frame g = concat (map pk_payload (firstn k ps)).
Proof.
  intros V ((A1 & A2 & A3) & C & H).
  assert (length (fr_fragments g) = length ps) as LG by (unfold zlen in *; lia).
  assert (complete g = true <-> forall i, (i < length ps)%nat -> In i ds) as CI.
  { unfold complete. rewrite Z.eqb_eq, A2, missing_zero. split.
    - intros F i Hi. destruct (nth_error ps i) as [p|] eqn:E; [|apply nth_error_None in E; lia]. destruct (H i p E) as (q & EQ & _ & N).
      destruct (in_dec Nat.eq_dec i ds) as [Y|Y]; [exact Y|]. exfalso. specialize (N Y). subst q. pose proof (proj1 (Forall_forall _ _) F _ (nth_error_In _ _ EQ)) as X. discriminate.
    - intros D. apply Forall_forall. intros q Hq. apply In_nth_error in Hq. destruct Hq as (i & EQ). assert (i < length (fr_fragments g))%nat as Hi by (apply nth_error_Some; congruence).
      destruct (nth_error ps i) as [p|] eqn:E; [|apply nth_error_None in E; lia]. destruct (H i p E) as (q' & EQ' & Y & _). rewrite (Y (D i ltac:(lia))) in EQ'. assert (q = p) as -> by congruence.
      exact (proj1 (Forall_forall _ _) V _ (nth_error_In _ _ E)). }
  split; [exact CI|]. split.
  - intros CT. pose proof (proj1 CI CT) as D. assert (fr_fragments g = ps) as EF.
    { apply nth_error_ext_packet. intros i. destruct (nth_error ps i) as [p|] eqn:E.
      - destruct (H i p E) as (q & EQ & Y & _). rewrite EQ. f_equal. apply Y, D. apply nth_error_Some. congruence.
      - apply nth_error_None in E. apply nth_error_None. lia. }
    unfold whole, packets. rewrite CT, EF. cbn [negb orb]. split; [reflexivity|]. rewrite C, Z.eqb_refl. reflexivity.
  - assert (G : forall l qs j, length qs = length l -> (forall i p, nth_error l i = Some p -> pk_valid p = true /\ exists q, nth_error qs i = Some q /\ (In (j + i)%nat ds -> q = p) /\ (~ In (j + i)%nat ds -> q = empty_packet)) ->
      exists k, (k <= length l)%nat /\ (forall i, (i < k)%nat -> In (j + i)%nat ds) /\ ((k < length l)%nat -> ~ In (j + k)%nat ds) /\ payloads_until_missing qs = concat (map pk_payload (firstn k l))).
    { induction l as [|p l IH]; intros [|q qs] j L X; try discriminate.
      - exists 0%nat. cbn. split; [lia|]. split; [lia|]. split; [lia|reflexivity].
      - destruct (X 0%nat p eq_refl) as (VP & q' & EQ & Y & N). injection EQ as <-. rewrite Nat.add_0_r in Y, N. destruct (in_dec Nat.eq_dec j ds) as [D|D].
        + destruct (IH qs (S j)) as (k & K1 & K2 & K3 & K4); [cbn in L; lia|intros i p' E'; replace (S j + i)%nat with (j + S i)%nat by lia; exact (X (S i) p' E')|].
          exists (S k). split; [cbn; lia|]. split; [intros [|i] Hi; [rewrite Nat.add_0_r; exact D|replace (j + S i)%nat with (S j + i)%nat by lia; apply K2; lia]|].
          split; [intros Hk; replace (j + S k)%nat with (S j + k)%nat by lia; apply K3; cbn in Hk; lia|].
          cbn [payloads_until_missing firstn map concat]. rewrite (Y D), VP, K4. reflexivity.
        + exists 0%nat. split; [lia|]. split; [lia|]. rewrite Nat.add_0_r. split; [auto|]. cbn [payloads_until_missing]. rewrite (N D). reflexivity. }
    destruct (G ps (fr_fragments g) 0%nat LG) as (k & K1 & K2 & K3 & K4).
    { intros i p E. split; [exact (proj1 (Forall_forall _ _) V _ (nth_error_In _ _ E))|]. exact (H i p E). }
    exists k. auto.
Qed.

Definition matching (g : fragmented) (ps : list packet) : Prop :=
  forall i p, nth_error ps i = Some p -> packet_fits p /\ pk_fragment p = Z.of_nat i /\ sane g p = true.

Lemma add_keeps g p g' : add_packet g p = Ok g' -> forall q, sane g' q = sane g q.
Proof.
  unfold add_packet. destruct (negb (sane g p)); [discriminate|]. destruct (nth_error _ _) as [old|]; [|discriminate]. destruct (pk_valid old); intros E; injection E as <-; reflexivity.
Qed.
Lemma add_count g p g' : add_packet g p = Ok g' -> fr_count g' = fr_count g.
Proof.
  unfold add_packet. destruct (negb (sane g p)); [discriminate|]. destruct (nth_error _ _) as [old|]; [|discriminate]. destruct (pk_valid old); intros E; injection E as <-; reflexivity.
Qed.

Lemma holding_add ps ds g d p : holding ps ds g -> matching g ps -> nth_error ps d = Some p ->
  exists g', add_packet g p = Ok g' /\ holding ps (d :: ds) g' /\ matching g' ps.
Proof.
  intros (A & C & H) M E. destruct (M d p E) as (F & N & S). pose proof F as (_ & _ & _ & _ & F5 & _ & _ & _ & F9).
  pose proof (C19_any_packet g p A F9 ltac:(lia)) as P. destruct (add_packet g p) as [g'|e] eqn:EA; [|destruct P; congruence].
  destruct P as (P1 & _ & P2). exists g'. split; [reflexivity|]. split.
  - split; [exact P1|]. split; [rewrite (add_count _ _ _ EA); exact C|]. intros i q EQ. destruct (H i q EQ) as (x & EX & Y & NX). rewrite P2, N, Nat2Z.id.
    destruct (Nat.eqb_spec i d) as [->|ND].
    + assert (q = p) as -> by congruence. rewrite EX. eexists. split; [reflexivity|]. split; [|intros Z; exfalso; apply Z; left; reflexivity]. intros _.
      destruct (in_dec Nat.eq_dec d ds) as [D|D]; [rewrite (Y D), F9; reflexivity|rewrite (NX D); reflexivity].
    + exists x. split; [exact EX|]. split; [intros [Z|Z]; [congruence|exact (Y Z)]|]. intros Z. apply NX. intros Q. apply Z. right. exact Q.
  - intros i q EQ. destruct (M i q EQ) as (M1 & M2 & M3). split; [exact M1|]. split; [exact M2|]. rewrite (add_keeps _ _ _ EA). exact M3.
Qed.

Lemma firstn_seq_packet : forall n k s, (k <= n)%nat -> firstn k (seq s n) = seq s k.
Proof. induction n as [|n IH]; intros [|k] s H; try reflexivity; [lia|]. cbn [seq firstn]. rewrite IH by lia. reflexivity. Qed.

Definition sent_as (p : packet) (d : list Z) : Prop := packet_string p = Ok d /\ zlen d < 2 ^ 64.

Lemma sent_parse p d : packet_fits p -> sent_as p d -> parse_packet (chunk_of d) = Ok p.
Proof. intros F (E & L). destruct (C18_round_trip p F) as (s & ES & _ & R). assert (s = d) as -> by congruence. apply R; [apply chunk_ok_of, L|apply cbytes_of]. Qed.

Lemma Forall2_nth {A B} (R : A -> B -> Prop) l m : Forall2 R l m -> forall i d, (i < length m)%nat -> exists a, nth_error l i = Some a /\ R a (nth i m d).
Proof. induction 1 as [|a b l m H F IH]; intros i d L; [cbn in L; lia|]. destruct i as [|i]; [exists a; auto|]. cbn in L. exact (IH i d ltac:(lia)). Qed.
Lemma Forall2_len {A B} (R : A -> B -> Prop) l m : Forall2 R l m -> length l = length m.
Proof. induction 1; cbn; congruence. Qed.

Lemma receive_more_spec ps ss : Forall2 sent_as ps ss -> forall rest ds g, holding ps ds g -> matching g ps -> Forall (fun i => (i < length ss)%nat) rest ->
  exists g', receive_more g (map (fun i => nth i ss []) rest) = Ok g' /\ holding ps (rev rest ++ ds) g' /\ matching g' ps.
Proof.
  intros F2. induction rest as [|d rest IH]; intros ds g H M F; [exists g; auto|]. inversion F as [|? ? Hd F']; subst.
  destruct (Forall2_nth _ _ _ F2 d [] Hd) as (p & E & S). destruct (M d p E) as (FP & _ & _).
  destruct (holding_add ps ds g d p H M E) as (g1 & EA & H1 & M1). destruct (IH (d :: ds) g1 H1 M1 F') as (g2 & E2 & H2 & M2).
  exists g2. cbn [map receive_more]. rewrite (sent_parse p _ FP S). cbn [rbind]. rewrite EA. cbn [rbind]. split; [exact E2|]. split; [|exact M2].
  cbn [rev]. rewrite <- app_assoc. exact H2.
Qed.

(** A frame of at most 65535 fragments, its fragments delivered in any order,
    any number of times each, or not at all. *)
Theorem C19_delivery :
  forall connection source target no time frame,
  0 <= connection < 2 ^ 16 -> 0 <= source < 2 ^ 32 -> 0 <= target < 2 ^ 32 -> 0 <= no < 2 ^ 32 -> 0 <= time < 2 ^ 32 ->
  frame <> [] -> zlen frame <= 65535 * 1400 ->
  exists n f ps ss, (forall fuel, (n <= fuel)%nat -> outgoing fuel connection source target no time frame = Ok f) /\ packets f = Ok ps /\
    Forall2 (fun p d => packet_string p = Ok d /\ zlen d <= 1422) ps ss /\
    (forall k, (k <= length ss)%nat -> concat (map pk_payload (firstn k ps)) = firstn (Z.to_nat (1400 * Z.of_nat k)) frame) /\
    forall first rest, Forall (fun i => (i < length ss)%nat) (first :: rest) ->
    exists g, receive connection (nth first ss []) (map (fun i => nth i ss []) rest) = Ok g /\
      (complete g = true <-> forall i, (i < length ss)%nat -> In i (first :: rest)) /\
      (complete g = true -> whole g = Ok frame) /\
      (complete g = false -> whole g = Err PInvalid) /\
      exists k, (k <= length ss)%nat /\ (forall i, (i < k)%nat -> In i (first :: rest)) /\ ((k < length ss)%nat -> ~ In k (first :: rest)) /\
        partial_frame g = firstn (Z.to_nat (1400 * Z.of_nat k)) frame.
Proof.
  intros connection source target no time frame H1 H2 H3 H4 H5 NE LF.
  pose proof (pieces_spec frame) as (P1 & P2).
  assert (Z.of_nat (pieces frame) <= 65535) as B by lia.
  set (ps := map (fragment connection source target no frame time) (seq 0 (pieces frame))).
  assert (LP : length ps = pieces frame) by (unfold ps; rewrite map_length, seq_length; reflexivity).
  assert (NP : forall i p, nth_error ps i = Some p -> (i < pieces frame)%nat /\ p = fragment connection source target no frame time i).
  { intros i p E. assert (i < pieces frame)%nat as Hi by (rewrite <- LP; apply nth_error_Some; congruence). split; [exact Hi|].
    unfold ps in E. rewrite (map_nth_error _ i (seq 0 (pieces frame)) (d := i)) in E; [congruence|]. rewrite nth_error_nth' with (d := 0%nat) by (rewrite seq_length; exact Hi). rewrite seq_nth by exact Hi. reflexivity. }
  assert (FP : forall i p, nth_error ps i = Some p -> packet_fits p).
  { intros i p E. destruct (NP i p E) as (Hi & ->). destruct (piece_length frame i Hi) as (_ & L1). unfold packet_fits, fragment. cbn [pk_valid pk_connection pk_source pk_target pk_frame pk_fragment pk_count pk_time pk_payload].
    split; [assumption|]. split; [assumption|]. split; [assumption|]. split; [assumption|]. split; [lia|]. split; [lia|]. split; [destruct (Nat.eqb i 0); lia|]. split; [|reflexivity].
    intros Z. rewrite Z in L1. cbn in L1. lia. }
  set (str := fun p => match packet_string p with Ok s => s | Err _ => [] end). set (ss := map str ps).
  assert (F2 : forall l, (forall p, In p l -> exists i, nth_error ps i = Some p) -> Forall2 (fun p d => packet_string p = Ok d /\ zlen d <= 1422) l (map str l)).
  { induction l as [|p l IH]; intros X; [constructor|]. cbn [map]. constructor; [|apply IH; intros q Q; apply X; right; exact Q].
    destruct (X p (or_introl eq_refl)) as (i & E). destruct (C18_round_trip p (FP i p E)) as (s & ES & EW & _). unfold str. rewrite ES. split; [reflexivity|].
    rewrite EW, zlen_app, wire_head_length. destruct (NP i p E) as (Hi & ->). cbn [fragment pk_payload]. destruct (piece_length frame i Hi) as (-> & _). lia. }
  specialize (F2 ps (fun p Q => In_nth_error _ _ Q)).
  assert (LS : length ss = pieces frame) by (unfold ss; rewrite map_length; exact LP).
  exists (pieces frame), (mkFragmented connection source target no (Z.of_nat (pieces frame)) ps 0), ps, ss.
  split; [intros fuel Hf; apply outgoing_spec; assumption|]. split.
  { unfold packets. cbn [complete fr_remaining Z.eqb negb orb fr_fragments fr_count]. unfold zlen. rewrite LP, Z.eqb_refl. reflexivity. }
  assert (PAY : forall k, (k <= pieces frame)%nat -> concat (map pk_payload (firstn k ps)) = firstn (Z.to_nat (1400 * Z.of_nat k)) frame).
  { intros j Hj. unfold ps. rewrite <- pieces_prefix. f_equal. rewrite firstn_map, map_map. cbn [fragment pk_payload]. rewrite firstn_seq_packet by exact Hj. reflexivity. }
  split; [exact F2|]. split; [intros j Hj; apply PAY; lia|]. intros first rest F. inversion F as [|? ? Hf F']; subst.
  assert (F2' : Forall2 sent_as ps ss).
  { clear - F2. unfold ss in *. induction F2 as [|p d l m (A & B) F IH]; constructor; [split; [exact A|lia]|exact IH]. }
  destruct (Forall2_nth _ _ _ F2' first [] Hf) as (p & E & S). pose proof (FP first p E) as Fit. destruct (NP first p E) as (Hi & EP).
  unfold receive. rewrite (sent_parse p _ Fit S). cbn [rbind].
  pose proof (C19_first_packet connection p Fit) as I. destruct (incoming connection p) as [g0|e]; [|destruct I as (_ & I); exfalso; apply I; rewrite EP; reflexivity].
  destruct I as (I1 & I2 & I3 & I4 & I5 & I6 & I7 & I8). rewrite EP in I4, I5, I6, I7. cbn [fragment pk_source pk_target pk_frame pk_count] in I4, I5, I6, I7. cbn [rbind].
  assert (M0 : matching g0 ps).
  { intros i q EQ. split; [exact (FP i q EQ)|]. destruct (NP i q EQ) as (Hq & ->). split; [reflexivity|]. unfold sane. rewrite I3, I4, I5, I6, I7. cbn [fragment pk_connection pk_source pk_target pk_frame pk_count pk_fragment].
    rewrite !Z.eqb_refl. cbn [andb]. lia. }
  assert (H0 : holding ps [first] g0).
  { split; [exact I1|]. split; [rewrite I7; unfold zlen; rewrite LP; reflexivity|]. intros i q EQ. destruct (NP i q EQ) as (Hq & Eq). rewrite I8, EP. cbn [fragment pk_count pk_fragment]. rewrite !Nat2Z.id.
    destruct (Nat.ltb_spec i (pieces frame)); [|lia]. eexists. split; [reflexivity|]. destruct (Nat.eqb_spec i first) as [->|ND].
    - split; [intros _; symmetry; exact Eq|]. intros Z. exfalso. apply Z. left. reflexivity.
    - split; [intros [Z|[]]; congruence|reflexivity]. }
  destruct (receive_more_spec ps ss F2' rest [first] g0 H0 M0 F') as (g & EG & HG & _). exists g. split; [exact EG|].
  assert (VP : Forall (fun p => pk_valid p = true) ps).
  { apply Forall_forall. intros q Q. apply In_nth_error in Q. destruct Q as (i & EQ). apply (FP i q EQ). }
  destruct (holding_complete ps (rev rest ++ [first]) g VP HG) as (C1 & C2 & k & K1 & K2 & K3 & K4).
  assert (MEM : forall i, In i (rev rest ++ [first]) <-> In i (first :: rest)).
  { intros i. rewrite in_app_iff, <- in_rev. cbn [In]. tauto. }
  split; [|split; [|split]].
  - rewrite C1, LP, LS. split; intros X i Q; apply MEM, X, Q.
  - intros CT. destruct (C2 CT) as (-> & _). f_equal. pose proof (PAY (pieces frame) ltac:(lia)) as X. rewrite <- LP, firstn_all in X. rewrite X. apply firstn_all2. rewrite LP. unfold zlen in P1. lia.
  - intros CF. unfold whole. rewrite CF. reflexivity.
  - exists k. rewrite LP in K1, K3. rewrite LS. split; [exact K1|]. split; [intros i Q; apply MEM, K2, Q|]. split; [intros Q R; apply (K3 Q), MEM, R|]. rewrite K4. apply PAY, K1.
Qed.

(** The limits of C19: an empty frame is undefined behaviour, 65536 fragments
    fail an assertion, and with more of them the sender never finishes. *)
Theorem C19_limits :
  forall fuel connection source target no time frame, zlen frame < 2 ^ 63 ->
  (frame = [] -> outgoing fuel connection source target no time frame = Err PUndefined) /\
  (1400 * 65535 < zlen frame <= 1400 * 65536 -> Z.of_nat fuel >= 65536 -> outgoing fuel connection source target no time frame = Err PAssert) /\
  (1400 * 65536 < zlen frame -> outgoing fuel connection source target no time frame = Err PUnfinished).
Proof.
  intros fuel connection source target no time frame L. split; [|split].
  - intros ->. unfold outgoing. destruct fuel; reflexivity.
  - intros H F. pose proof (pieces_spec frame) as (P1 & P2). assert (Z.of_nat (pieces frame) = 65536) as N by lia.
    unfold outgoing. pose proof (fragment_loop_spec connection source target no frame ltac:(lia) (pieces frame) 0 fuel ltac:(lia) ltac:(lia)) as E.
    change (wrap 16 (Z.of_nat 0)) with 0 in E. replace (Z.min (1400 * Z.of_nat 0) (zlen frame)) with 0 in E by lia.
    rewrite E. clear E. cbn [rbind]. destruct (pieces frame) as [|n] eqn:EN; [lia|]. cbn [seq map].
    set (q := map _ (seq 1 n)). assert (zlen (set_time (raw connection source target no frame 0) time :: q) = 65536) as -> by (rewrite zlen_cons; unfold q, zlen; rewrite map_length, seq_length; lia).
    reflexivity.
  - intros H. unfold outgoing. rewrite fragment_loop_endless by lia. reflexivity.
Qed.

(** The partial frame is what was in the fragments before the first one that
    has not arrived, a prefix of the frame. *)
Theorem C20_partial_frame :
  forall connection source target no time frame,
  0 <= connection < 2 ^ 16 -> 0 <= source < 2 ^ 32 -> 0 <= target < 2 ^ 32 -> 0 <= no < 2 ^ 32 -> 0 <= time < 2 ^ 32 ->
  frame <> [] -> zlen frame <= 65535 * 1400 ->
  exists n f ps ss, (forall fuel, (n <= fuel)%nat -> outgoing fuel connection source target no time frame = Ok f) /\ packets f = Ok ps /\
    Forall2 (fun p d => packet_string p = Ok d) ps ss /\
    forall first rest k, Forall (fun i => (i < length ss)%nat) (first :: rest) ->
    (forall i, (i < k)%nat -> In i (first :: rest)) -> ~ In k (first :: rest) ->
    exists g, receive connection (nth first ss []) (map (fun i => nth i ss []) rest) = Ok g /\
      partial_frame g = concat (map pk_payload (firstn k ps)) /\ exists more, frame = partial_frame g ++ more.
Proof.
  intros connection source target no time frame H1 H2 H3 H4 H5 NE LF.
  destruct (C19_delivery connection source target no time frame H1 H2 H3 H4 H5 NE LF) as (n & f & ps & ss & E & EP & F2 & PAY & R).
  exists n, f, ps, ss. split; [exact E|]. split; [exact EP|]. split.
  { clear - F2. induction F2 as [|p d l m (A & B) F IH]; constructor; assumption. }
  intros first rest k F K1 K2. destruct (R first rest F) as (g & EG & _ & _ & _ & j & J1 & J2 & J3 & J4). exists g. split; [exact EG|].
  assert (k <= length ss)%nat as Lk.
  { destruct (Nat.le_gt_cases k (length ss)) as [|G]; [assumption|]. pose proof (proj1 (Forall_forall _ _) F _ (K1 (length ss) G)) as X. cbv beta in X. lia. }
  assert (j = k) as ->.
  { destruct (Nat.lt_trichotomy j k) as [C|[C|C]]; [|exact C|].
    - exfalso. apply J3; [lia|]. apply K1, C.
    - exfalso. apply K2, J2, C. }
  rewrite J4, PAY by exact Lk. split; [reflexivity|]. eexists. symmetry. apply firstn_skipn.
Qed.

(** ** C21 *)

Definition ack_fits (a : ack) : Prop :=
  0 <= ak_connection a < 2 ^ 16 /\ 0 <= ak_frame a < 2 ^ 32 /\ 0 <= ak_fragment a < 2 ^ 16 /\ 0 <= ak_delay a < 2 ^ 32 /\ 0 <= ak_current a < 2 ^ 32 /\
  Forall (fun s => 0 <= s < 2 ^ 32) (ak_complete a) /\ zlen (ak_complete a) < 2 ^ 32.

Definition ack_head (connection frame fragment delay current count : Z) : list Z :=
  le_bytes 2 connection ++ le_bytes 4 frame ++ le_bytes 2 fragment ++ le_bytes 4 delay ++ le_bytes 4 current ++ le_bytes 4 count.
Definition states_bytes (l : list Z) : list Z := concat (map (le_bytes 4) l).

Lemma states_length l : zlen (states_bytes l) = 4 * zlen l.
Proof. unfold states_bytes. induction l as [|s l IH]; [reflexivity|]. cbn [map concat]. rewrite zlen_app, zlen_cons, IH. change (zlen (le_bytes 4 s)) with 4. lia. Qed.

Lemma ack_string_spec a : ack_fits a -> ack_string a = ack_head (ak_connection a) (ak_frame a) (ak_fragment a) (ak_delay a) (ak_current a) (zlen (ak_complete a)) ++ states_bytes (ak_complete a).
Proof.
  intros (_ & _ & _ & _ & _ & _ & L). unfold ack_string, ack_head, states_bytes, wrap. pose proof (zlen_nonneg (ak_complete a)). rewrite Z.mod_small by lia.
  rewrite !put32_spec. change put16 with (le_bytes 2). rewrite <- !app_assoc. do 6 f_equal. rewrite (map_ext put32 (le_bytes 4) put32_spec). reflexivity.
Qed.

(** Reading states: the values found, or a range error. *)
Lemma parse_states_spec c : chunk_ok c -> bytes_ok (cbytes c) -> forall n i, 0 <= i -> i + Z.of_nat n < 2 ^ 33 ->
  if c_size c <? 20 + 4 * (i + Z.of_nat n) then (1 <= n)%nat -> parse_states c n i = Err PRange
  else exists l, parse_states c n i = Ok l /\ length l = n /\ Forall (fun s => 0 <= s < 2 ^ 32) l /\ at_ (cbytes c) (Z.to_nat (20 + 4 * i)) (4 * n) = states_bytes l.
Proof.
  intros C B. induction n as [|n IH]; intros i Hi Hn.
  - destruct (c_size c <? _); [lia|]. exists []. split; [reflexivity|]. split; [reflexivity|]. split; [constructor|]. reflexivity.
  - cbn [parse_states]. unfold le32. assert (wrap 64 (20 + i * 4) = 20 + 4 * i) as -> by (unfold wrap; rewrite Z.mod_small; lia).
    rewrite (field_read c (20 + 4 * i) 4 4 C) by lia. specialize (IH (i + 1) ltac:(lia) ltac:(lia)).
    replace (20 + 4 * (i + 1 + Z.of_nat n)) with (20 + 4 * (i + Z.of_nat (S n))) in IH by lia.
    destruct (Z.ltb_spec (c_size c) (20 + 4 * (i + Z.of_nat (S n)))) as [T|T].
    + intros _. destruct (Z.ltb_spec (c_size c) (20 + 4 * i + 4)); [reflexivity|]. cbn [rbind]. rewrite IH by lia. reflexivity.
    + destruct (Z.ltb_spec (c_size c) (20 + 4 * i + 4)); [lia|]. cbn [rbind]. destruct IH as (l & -> & LL & FL & AL). cbn [rbind]. eexists. split; [reflexivity|].
      assert (bytes_ok (at_ (cbytes c) (Z.to_nat (20 + 4 * i)) 4)) as Ba by (unfold at_; apply bytes_ok_sub, B).
      assert (length (at_ (cbytes c) (Z.to_nat (20 + 4 * i)) 4) = 4%nat) as La by (unfold at_; rewrite firstn_length, skipn_length; pose proof (zlen_cbytes c C) as LC; unfold zlen in LC; lia).
      split; [cbn [length]; lia|]. split.
      * constructor; [|exact FL]. pose proof (le_value_range _ Ba) as R. unfold zlen in R. rewrite La in R. exact R.
      * unfold states_bytes. cbn [map concat]. fold (states_bytes l). rewrite (le_bytes_value 4 _ Ba La), <- AL. unfold at_.
        replace (Z.to_nat (20 + 4 * (i + 1))) with (Z.to_nat (20 + 4 * i) + 4)%nat by lia. rewrite <- skipn_skipn', firstn_more. f_equal. lia.
Qed.

Lemma parse_ack_cases c : chunk_ok c ->
  parse_ack c =
    let l := cbytes c in
    if c_size c <? 20 then Err PRange
    else let! states := parse_states c (Z.to_nat (le_value (at_ l 16 4))) 0 in
         Ok (mkAck (le_value (at_ l 0 2)) (le_value (at_ l 2 4)) (le_value (at_ l 6 2)) (le_value (at_ l 8 4)) (le_value (at_ l 12 4)) states).
Proof.
  intros C. unfold parse_ack, le16, le32. cbv zeta.
  rewrite (field_read c 0 2 2), (field_read c 2 4 4), (field_read c 6 2 2), (field_read c 8 4 4), (field_read c 12 4 4), (field_read c 16 4 4) by (try assumption; lia).
  destruct (Z.ltb_spec (c_size c) 20) as [L|G].
  - destruct (c_size c <? 0 + 2); [reflexivity|]. cbn [rbind]. destruct (c_size c <? 2 + 4); [reflexivity|]. cbn [rbind]. destruct (c_size c <? 6 + 2); [reflexivity|]. cbn [rbind].
    destruct (c_size c <? 8 + 4); [reflexivity|]. cbn [rbind]. destruct (c_size c <? 12 + 4); [reflexivity|]. cbn [rbind]. destruct (Z.ltb_spec (c_size c) (16 + 4)); [reflexivity|lia].
  - assert (forall k, k <= 20 -> (c_size c <? k) = false) as F by (intros; lia). rewrite !F by lia. reflexivity.
Qed.

(** Every datagram: it is rejected exactly if it is too short for its header or
    for the states that it announces; otherwise it begins with the serialisation
    of what was read. *)
Theorem C21_datagrams :
  forall c, chunk_ok c -> bytes_ok (cbytes c) ->
  match parse_ack c with
  | Ok a => ack_fits a /\ exists rest, cbytes c = ack_string a ++ rest
  | Err e => e = PRange /\ (c_size c < 20 \/ c_size c < 20 + 4 * le_value (firstn 4 (skipn 16 (cbytes c))))
  end.
Proof.
  intros c C B. rewrite (parse_ack_cases c C). cbv zeta. destruct (Z.ltb_spec (c_size c) 20); [auto|].
  set (l := cbytes c) in *. pose proof (zlen_cbytes c C) as LC. fold l in LC.
  assert (forall o n, (o + n <= 20)%nat -> 0 <= le_value (at_ l o n) < 2 ^ (8 * Z.of_nat n) /\ le_bytes n (le_value (at_ l o n)) = at_ l o n) as R.
  { intros o n Hon. assert (bytes_ok (at_ l o n)) as Ba by (unfold at_; apply bytes_ok_sub, B).
    assert (length (at_ l o n) = n) as La by (unfold at_; rewrite firstn_length, skipn_length; unfold zlen in LC; lia).
    split; [|apply le_bytes_value; assumption]. pose proof (le_value_range _ Ba) as Rg. unfold zlen in Rg. rewrite La in Rg. exact Rg. }
  pose proof (proj1 (R 16%nat 4%nat ltac:(lia))) as HC. set (count := le_value (at_ l 16 4)) in *. change (2 ^ (8 * Z.of_nat 4)) with (2 ^ 32) in HC.
  pose proof (parse_states_spec c C B (Z.to_nat count) 0 ltac:(lia) ltac:(lia)) as P. rewrite Z.add_0_l, Z2Nat.id in P by lia.
  destruct (Z.ltb_spec (c_size c) (20 + 4 * count)).
  - rewrite P by lia. cbn [rbind]. split; [reflexivity|]. right. exact H0.
  - destruct P as (ss & -> & LS & FS & AS). cbn [rbind]. set (a := mkAck _ _ _ _ _ _).
    assert (zlen ss = count) as ZS by (unfold zlen; lia).
    assert (ack_fits a) as FA.
    { unfold ack_fits, a. cbn [ak_connection ak_frame ak_fragment ak_delay ak_current ak_complete].
      split; [exact (proj1 (R 0%nat 2%nat ltac:(lia)))|]. split; [exact (proj1 (R 2%nat 4%nat ltac:(lia)))|]. split; [exact (proj1 (R 6%nat 2%nat ltac:(lia)))|].
      split; [exact (proj1 (R 8%nat 4%nat ltac:(lia)))|]. split; [exact (proj1 (R 12%nat 4%nat ltac:(lia)))|]. split; [exact FS|lia]. }
    split; [exact FA|]. exists (skipn (Z.to_nat (20 + 4 * count)) l). rewrite (ack_string_spec a FA). unfold ack_head. cbn [a ak_connection ak_frame ak_fragment ak_delay ak_current ak_complete].
    rewrite ZS. unfold count at 1. rewrite (proj2 (R 0 2 ltac:(lia))%nat), (proj2 (R 2 4 ltac:(lia))%nat), (proj2 (R 6 2 ltac:(lia))%nat), (proj2 (R 8 4 ltac:(lia))%nat), (proj2 (R 12 4 ltac:(lia))%nat), (proj2 (R 16 4 ltac:(lia))%nat).
    rewrite <- AS, <- !app_assoc. change (Z.to_nat (20 + 4 * 0)) with 20%nat. unfold at_. fold l.
    assert (forall (m : list Z) x b k, (k = x + b)%nat -> firstn x (skipn b m) ++ skipn k m = skipn b m) as J.
    { intros m x b k ->. rewrite (Nat.add_comm x b), <- skipn_skipn'. apply firstn_skipn. }
    rewrite (J l (4 * Z.to_nat count)%nat 20%nat) by lia. rewrite !J by reflexivity. reflexivity.
Qed.

Theorem C21_round_trip :
  forall a, ack_fits a -> zlen (ack_string a) < 2 ^ 64 /\
  forall c rest, chunk_ok c -> bytes_ok (cbytes c) -> cbytes c = ack_string a ++ rest -> parse_ack c = Ok a.
Proof.
  intros a F. pose proof F as (H1 & H2 & H3 & H4 & H5 & H6 & H7). rewrite (ack_string_spec a F). pose proof (zlen_nonneg (ak_complete a)).
  split; [rewrite zlen_app, states_length; change (zlen (ack_head _ _ _ _ _ _)) with 20; lia|]. intros c rest C B E.
  pose proof (zlen_cbytes c C) as LC. rewrite E, !zlen_app, states_length in LC. change (zlen (ack_head _ _ _ _ _ _)) with 20 in LC. pose proof (zlen_nonneg rest).
  rewrite (parse_ack_cases c C). cbv zeta. destruct (Z.ltb_spec (c_size c) 20); [lia|].
  destruct a as [co fr fg de cu st]. cbn [ak_connection ak_frame ak_fragment ak_delay ak_current ak_complete] in *.
  assert (at_ (cbytes c) 16 4 = le_bytes 4 (zlen st)) as E6 by (rewrite E; reflexivity). rewrite E6, value_of_bytes by (cbn; lia).
  pose proof (parse_states_spec c C B (Z.to_nat (zlen st)) 0 ltac:(lia) ltac:(lia)) as P. rewrite Z.add_0_l, Z2Nat.id in P by lia.
  destruct (Z.ltb_spec (c_size c) (20 + 4 * zlen st)); [lia|]. destruct P as (ss & -> & LS & FS & AS). cbn [rbind].
  assert (ss = st) as ->.
  { assert (states_bytes ss = states_bytes st) as ES.
    { rewrite <- AS, E. change (Z.to_nat (20 + 4 * 0)) with 20%nat. unfold at_. change (skipn 20 ((ack_head co fr fg de cu (zlen st) ++ states_bytes st) ++ rest)) with (states_bytes st ++ rest).
      rewrite firstn_app, firstn_all2 by (pose proof (states_length st); unfold zlen in *; lia).
      replace (4 * Z.to_nat (zlen st) - length (states_bytes st))%nat with 0%nat by (pose proof (states_length st); unfold zlen in *; lia). apply app_nil_r. }
    assert (length ss = length st) as LL by (unfold zlen in LS; lia). clear - ES LL FS H6. revert st LL ES H6. induction FS as [|s ss Hs FS IH]; intros [|t st] LL ES H6; try discriminate; [reflexivity|].
    inversion H6 as [|? ? Ht H6']; subst. unfold states_bytes in ES. cbn [map concat] in ES.
    assert (firstn 4 (le_bytes 4 s ++ concat (map (le_bytes 4) ss)) = firstn 4 (le_bytes 4 t ++ concat (map (le_bytes 4) st))) as E1 by congruence.
    assert (skipn 4 (le_bytes 4 s ++ concat (map (le_bytes 4) ss)) = skipn 4 (le_bytes 4 t ++ concat (map (le_bytes 4) st))) as E2 by congruence.
    change (le_bytes 4 s = le_bytes 4 t) in E1. change (states_bytes ss = states_bytes st) in E2. apply (f_equal le_value) in E1. rewrite !value_of_bytes in E1 by (cbn; lia). subst t.
    f_equal. apply IH; [cbn in LL; lia|exact E2|exact H6']. }
  rewrite E. change (at_ _ 0 2) with (le_bytes 2 co). change (at_ _ 2 4) with (le_bytes 4 fr). change (at_ _ 6 2) with (le_bytes 2 fg). change (at_ _ 8 4) with (le_bytes 4 de). change (at_ _ 12 4) with (le_bytes 4 cu).
  rewrite !value_of_bytes by (cbn; lia). reflexivity.
Qed.

(** ** Examples *)

Example C18_example : packet_fits (mkPacket true 513 1 2 3 4 5 6 [7; 8]) /\
  packet_string (mkPacket true 513 1 2 3 4 5 6 [7; 8]) = Ok [1; 2; 1; 0; 0; 0; 2; 0; 0; 0; 3; 0; 0; 0; 4; 0; 5; 0; 6; 0; 0; 0; 7; 8] /\
  parse_packet (chunk_of [1; 2; 1; 0; 0; 0; 2; 0; 0; 0; 3; 0; 0; 0; 5; 0; 5; 0; 6; 0; 0; 0; 7; 8]) = Err PInvalid.
Proof. split; [repeat split; try (cbn; lia); discriminate|]. split; vm_compute; reflexivity. Qed.

(** Three fragments, the middle one missing, then delivered. *)
Example C19_example :
  let p i payload := mkPacket true 7 1 2 3 i 3 0 payload in
  match incoming 7 (p 2 [30]) with
  | Ok f => match add_packet f (p 0 [10; 11]) with
            | Ok g => complete g = false /\ partial_frame g = [10; 11] /\
                      match add_packet g (p 1 [20]) with Ok h => whole h = Ok [10; 11; 20; 30] | Err _ => False end
            | Err _ => False
            end
  | Err _ => False
  end.
Proof. vm_compute. auto. Qed.
Example C19_example_frame : [1; 2; 3] <> [] /\ zlen [1; 2; 3] <= 65535 * 1400 /\ exists f, outgoing 1 7 1 2 3 100 [1; 2; 3] = Ok f /\ fr_count f = 1 /\ complete f = true.
Proof. split; [discriminate|]. split; [cbn; lia|]. eexists. split; [vm_compute; reflexivity|]. split; reflexivity. Qed.

Example C21_example : ack_fits (mkAck 1 2 3 4 5 [6; 4294967295]) /\
  parse_ack (chunk_of (ack_string (mkAck 1 2 3 4 5 [6; 4294967295]))) = Ok (mkAck 1 2 3 4 5 [6; 4294967295]) /\
  parse_ack (chunk_of (firstn 27 (ack_string (mkAck 1 2 3 4 5 [6; 4294967295])))) = Err PRange.
Proof. split; [repeat split; try (cbn; lia); repeat (constructor; [lia|]); constructor|]. split; vm_compute; reflexivity. Qed.

Print Assumptions C18_round_trip.
Print Assumptions C18_datagrams.
Print Assumptions C19_any_packet.
Print Assumptions C19_first_packet.
Print Assumptions C19_delivery.
Print Assumptions C19_limits.
Print Assumptions C20_partial_frame.
Print Assumptions C21_datagrams.
Print Assumptions C21_round_trip.
