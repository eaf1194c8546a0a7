(** Property C48: complete writes and exact reads. *)
From Verif Require Import Base ChunkModel ChunkProofs FdModel.

Lemma moved_range n a : 0 <= a -> 0 <= moved n a <= a.
Proof. unfold moved, MAX_RW_COUNT. lia. Qed.
Lemma moved_positive n a : 1 <= n -> 1 <= a -> 1 <= moved n a.
Proof. unfold moved, MAX_RW_COUNT. lia. Qed.
(** The count is an int. *)
Lemma moved_int n a : moved n a < 2 ^ 31.
Proof. unfold moved, MAX_RW_COUNT. lia. Qed.

Definition willing (a : answer) : Prop := exists n, a = Upto n /\ 1 <= n.

(** ** Writing *)

(** The kernel gets the bytes in order, none twice and none left out; all of
    them if the call returns. It returns if the kernel keeps taking bytes. *)
Theorem C48_write_chunk :
  forall c l, chunk_ok c ->
  let '(r, sent) := write_chunk c l in
  (exists rest, cbytes c = sent ++ rest) /\ (r = Ok tt -> sent = cbytes c) /\
  match r with
  | Ok _ => True
  | Err FSystem => In Refuse l
  | Err FZero => exists n, In (Upto n) l /\ n <= 0
  | Err FWaiting => Forall willing l
  | Err _ => False
  end /\
  (Forall willing l -> c_size c <= zlen l -> r = Ok tt).
Proof.
  intros c l. revert c. induction l as [|a l IH]; intros c C; cbn [write_chunk].
  - destruct (Z.eqb_spec (c_size c) 0) as [E|E].
    + pose proof (zlen_cbytes c C) as Z. rewrite E in Z. destruct (cbytes c) as [|x m] eqn:EB; [|rewrite zlen_cons in Z; pose proof (zlen_nonneg m); lia].
      split; [exists []; reflexivity|]. auto.
    + split; [eexists; reflexivity|]. split; [discriminate|]. split; [constructor|]. pose proof (proj1 (proj2 C)). intros _ HL. cbn in HL. lia.
  - destruct (Z.eqb_spec (c_size c) 0) as [E|E].
    + pose proof (zlen_cbytes c C) as Z. rewrite E in Z. destruct (cbytes c) as [|x m] eqn:EB; [|rewrite zlen_cons in Z; pose proof (zlen_nonneg m); lia].
      split; [exists []; reflexivity|]. auto.
    + destruct a as [|n]; cbn [kernel_write].
      { split; [eexists; reflexivity|]. split; [discriminate|]. split; [left; reflexivity|]. intros F _. inversion F as [|? ? (n & ? & _) _]; discriminate. }
      pose proof (zlen_cbytes c C) as Z. pose proof (proj1 (proj2 C)) as Hs. rewrite Z. pose proof (moved_range n (c_size c) Hs) as R. set (k := moved n (c_size c)) in *.
      destruct (Z.eqb_spec k 0) as [K|K].
      { assert (n <= 0) as Hn. { destruct (Z_le_gt_dec n 0); [assumption|]. pose proof (moved_positive n (c_size c) ltac:(lia) ltac:(lia)). fold k in H. lia. }
        rewrite K. split; [eexists; reflexivity|]. split; [discriminate|]. split; [exists n; split; [left; reflexivity|exact Hn]|].
        intros F _. inversion F as [|? ? (m & E1 & E2) _]; subst. injection E1 as ->. lia. }
      rewrite (ctail_spec c k C R). set (d := mkChunk (c_mem c) (c_off c + k) (c_size c - k)).
      assert (chunk_ok d) as CD by (destruct C as (C1 & C2 & C3 & C4); unfold d, chunk_ok; cbn [c_off c_size c_mem]; lia).
      assert (cbytes d = skipn (Z.to_nat k) (cbytes c)) as BD.
      { pose proof C as (C1 & C2 & C3 & C4). unfold d, cbytes. cbn [c_off c_size c_mem]. rewrite skipn_firstn_comm, skipn_skipn'.
        replace (Z.to_nat (c_size c - k)) with (Z.to_nat (c_size c) - Z.to_nat k)%nat by lia. replace (Z.to_nat (c_off c + k)) with (Z.to_nat (c_off c) + Z.to_nat k)%nat by lia. reflexivity. }
      specialize (IH d CD). destruct (write_chunk d l) as [r more]. destruct IH as (I1 & I2 & I3 & I4). rewrite BD in I1, I2.
      split; [|split; [|split]].
      * destruct I1 as (rest & ER). exists rest. rewrite <- app_assoc, <- ER, firstn_skipn. reflexivity.
      * intros Er. rewrite (I2 Er). apply firstn_skipn.
      * destruct r as [u|[]]; try exact I; try contradiction.
        -- right. exact I3.
        -- destruct I3 as (m & IM & HM). exists m. split; [right; exact IM|exact HM].
        -- constructor; [|exact I3]. exists n. split; [reflexivity|]. destruct (Z_le_gt_dec n 0); [|lia]. unfold k, moved in K. lia.
      * intros F L. inversion F as [|? ? _ F']; subst. rewrite zlen_cons in L. apply I4; [exact F'|]. cbn [d c_size]. lia.
Qed.

(** The same for a string, from position [it]; the result is the end of the
    string. An empty string is refused. *)
Lemma write_string_spec buffer l : forall it, 0 <= it < zlen buffer ->
  let '(r, sent) := write_string buffer true it l in
  (exists rest, skipn (Z.to_nat it) buffer = sent ++ rest) /\
  match r with
  | Ok p => p = zlen buffer /\ sent = skipn (Z.to_nat it) buffer
  | Err FSystem => In Refuse l
  | Err FZero => exists n, In (Upto n) l /\ n <= 0
  | Err FWaiting => Forall willing l
  | Err _ => False
  end /\
  (Forall willing l -> zlen buffer - it <= zlen l -> exists p, r = Ok p).
Proof.
  induction l as [|a l IH]; intros it Hi; cbn [write_string].
  - destruct (Z.geb_spec it (zlen buffer)); [lia|]. split; [eexists; reflexivity|]. split; [constructor|]. intros _ H1. cbn in H1. lia.
  - unfold write_once. destruct (Z.geb_spec it (zlen buffer)); [lia|]. destruct a as [|n]; cbn [kernel_write].
    { split; [eexists; reflexivity|]. split; [left; reflexivity|]. intros F _. inversion F as [|? ? (n & ? & _) _]; discriminate. }
    set (q := skipn (Z.to_nat it) buffer). assert (zlen q = zlen buffer - it) as Z by (unfold q, zlen in *; rewrite skipn_length; lia). rewrite Z.
    pose proof (moved_range n (zlen buffer - it) ltac:(lia)) as R. set (k := moved n (zlen buffer - it)) in *.
    destruct (Z.eqb_spec k 0) as [K|K].
    { assert (n <= 0) as Hn. { destruct (Z_le_gt_dec n 0); [assumption|]. pose proof (moved_positive n (zlen buffer - it) ltac:(lia) ltac:(lia)) as P. fold k in P. lia. }
      split; [eexists; reflexivity|]. split; [exists n; split; [left; reflexivity|exact Hn]|].
      intros F _. inversion F as [|? ? (m & E1 & E2) _]; subst. injection E1 as ->. lia. }
    assert (1 <= n) as Hn by (destruct (Z_le_gt_dec n 0); [|lia]; unfold k, moved in K; lia).
    cbn [andb]. destruct (Z.eqb_spec (it + k) (zlen buffer)) as [E|E]; cbn [negb].
    + assert (firstn (Z.to_nat k) q = q) as -> by (apply firstn_all2; unfold zlen in *; lia).
      split; [exists []; symmetry; apply app_nil_r|]. split; [auto|]. intros _ _. eexists. reflexivity.
    + specialize (IH (it + k) ltac:(lia)). destruct (write_string buffer true (it + k) l) as [r more]. destruct IH as (I1 & I2 & I3).
      assert (skipn (Z.to_nat (it + k)) buffer = skipn (Z.to_nat k) q) as EQ by (unfold q; rewrite skipn_skipn'; f_equal; lia). rewrite EQ in I1, I2.
      split; [|split].
      * destruct I1 as (rest & ER). exists rest. rewrite <- app_assoc, <- ER, firstn_skipn. reflexivity.
      * destruct r as [p|[]]; try contradiction.
        -- destruct I2 as [I2 ->]. split; [exact I2|]. apply firstn_skipn.
        -- right. exact I2.
        -- destruct I2 as (m & IM & HM). exists m. split; [right; exact IM|exact HM].
        -- constructor; [exists n; auto|exact I2].
      * intros F L. inversion F as [|? ? _ F']; subst. rewrite zlen_cons in L. apply I3; [exact F'|lia].
Qed.

Theorem C48_write_string :
  forall buffer l,
  let '(r, sent) := write_string buffer true 0 l in
  (exists rest, buffer = sent ++ rest) /\
  match r with
  | Ok p => p = zlen buffer /\ sent = buffer
  | Err FSystem => In Refuse l
  | Err FZero => exists n, In (Upto n) l /\ n <= 0
  | Err FWaiting => Forall willing l
  | Err FNothing => buffer = []
  | Err _ => False
  end /\
  (Forall willing l -> buffer <> [] -> zlen buffer <= zlen l -> r = Ok (zlen buffer)).
Proof.
  intros buffer l. destruct buffer as [|b buffer].
  - assert (write_string [] true 0 l = (Err FNothing, [])) as -> by (destruct l; reflexivity).
    split; [exists []; reflexivity|]. split; [reflexivity|]. congruence.
  - pose proof (zlen_nonneg buffer). pose proof (write_string_spec (b :: buffer) l 0 ltac:(rewrite zlen_cons; lia)) as S.
    destruct (write_string (b :: buffer) true 0 l) as [r sent]. change (skipn (Z.to_nat 0) (b :: buffer)) with (b :: buffer) in S. destruct S as (S1 & S2 & S3).
    split; [exact S1|]. split; [destruct r as [|[]]; try exact S2; contradiction|].
    intros F _ L. destruct (S3 F ltac:(lia)) as (p & ->). f_equal. apply S2.
Qed.

(** A single write hands over at least one byte from the front. *)
Theorem C48_write_once :
  forall buffer l p sent, write_string buffer false 0 l = (Ok p, sent) ->
  1 <= p <= zlen buffer /\ sent = firstn (Z.to_nat p) buffer.
Proof.
  intros buffer [|a l] p sent E; cbn [write_string] in E; destruct (0 >=? zlen buffer) eqn:G; try discriminate.
  unfold write_once in E. rewrite G in E. change (skipn (Z.to_nat 0) buffer) with buffer in E. cbn [andb] in E.
  destruct (kernel_write a buffer) as [n|] eqn:K; [|discriminate]. destruct (Z.eqb_spec n 0); [discriminate|].
  injection E as <- <-. destruct a as [|m]; [discriminate|]. injection K as <-. pose proof (moved_range m (zlen buffer) (zlen_nonneg _)). split; [lia|reflexivity].
Qed.

(** ** Reading *)

Definition no_refusal (s : source) : Prop := Forall (fun a => a <> Refuse) (s_answers s).

Lemma read_spec limit s : 1 <= limit -> s_eof s = false ->
  let '(r, s') := read limit s in
  match r with
  | Ok b => s_stream s = b ++ s_stream s' /\ zlen b <= limit /\ (exists a, s_answers s = a :: s_answers s') /\
            (s_eof s' = true -> b = [] /\ s_stream s = []) /\ (s_eof s' = false -> 1 <= zlen b)
  | Err FSystem => ~ no_refusal s /\ s_stream s' = s_stream s
  | Err FWaiting => s_answers s = [] /\ s' = s
  | Err _ => False
  end.
Proof.
  intros Hl He. unfold read. rewrite He. destruct (s_answers s) as [|a l] eqn:EA; [auto|].
  destruct a as [|n]; cbn [kernel_read].
  - split; [|reflexivity]. unfold no_refusal. rewrite EA. intros F. inversion F; congruence.
  - pose proof (zlen_nonneg (s_stream s)) as Hs. set (lim := Z.min (Z.min BUFFER_SIZE limit) (zlen (s_stream s))).
    assert (0 <= lim <= zlen (s_stream s) /\ lim <= limit /\ (zlen (s_stream s) = 0 <-> lim = 0)) as (L1 & L2 & L3) by (unfold lim, BUFFER_SIZE; lia).
    pose proof (moved_range (Z.max 1 n) lim ltac:(lia)) as R. pose proof (moved_positive (Z.max 1 n) lim ltac:(lia)) as P. set (k := moved (Z.max 1 n) lim) in *.
    assert (zlen (firstn (Z.to_nat k) (s_stream s)) = k) as ZB by (unfold zlen in *; rewrite firstn_length; lia).
    cbn [s_stream s_answers s_eof]. rewrite ZB. split; [symmetry; apply firstn_skipn|]. split; [lia|]. split; [exists (Upto n); reflexivity|]. split.
    + intros E. assert (k = 0) as K by lia. rewrite K. split; [reflexivity|]. assert (lim = 0) as L0 by lia. apply L3 in L0.
      destruct (s_stream s) as [|x m]; [reflexivity|]. rewrite zlen_cons in L0. pose proof (zlen_nonneg m). lia.
    + lia.
Qed.

Lemma no_refusal_tail s s' a : s_answers s = a :: s_answers s' -> no_refusal s -> no_refusal s'.
Proof. unfold no_refusal. intros -> F. inversion F; assumption. Qed.

Lemma read_exactly_spec len : forall fuel ret s, s_eof s = false -> zlen ret <= len -> (length (s_answers s) < fuel)%nat ->
  let '(r, s') := read_exactly_loop fuel ret len s in
  (exists used, s_stream s = used ++ s_stream s' /\ forall b, r = Ok b -> b = ret ++ used /\ zlen b = len /\ s_eof s' = false) /\
  match r with
  | Ok _ => True
  | Err FSystem => ~ no_refusal s
  | Err FEof => zlen ret + zlen (s_stream s) < len /\ s_stream s' = []
  | Err FWaiting => s_answers s' = []
  | Err _ => False
  end /\
  (no_refusal s -> len - zlen ret <= zlen (s_answers s) -> len <= zlen ret + zlen (s_stream s) -> exists b, r = Ok b) /\
  (no_refusal s -> zlen (s_stream s) < zlen (s_answers s) -> zlen ret + zlen (s_stream s) < len -> r = Err FEof).
Proof.
  induction fuel as [|fuel IH]; intros ret s He Hr Hf; [lia|]. cbn [read_exactly_loop].
  destruct (Z.ltb_spec (zlen ret) len) as [Lt|Ge].
  - pose proof (read_spec (len - zlen ret) s ltac:(lia) He) as R. destruct (read (len - zlen ret) s) as [[b|e] s'].
    + destruct R as (R1 & R2 & (a & R3) & R4 & R5). destruct (s_eof s') eqn:Ee.
      * destruct (R4 eq_refl) as (-> & ES). cbn [app] in R1. pose proof (zlen_nonneg (s_stream s)).
        split; [exists []; split; [exact R1|discriminate]|]. rewrite ES in *. change (zlen (@nil Z)) with 0 in *.
        split; [split; [lia|symmetry; exact R1]|]. split; [lia|]. intros; reflexivity.
      * specialize (R5 eq_refl). assert (zlen (ret ++ b) = zlen ret + zlen b) as ZR by apply zlen_app.
        assert (zlen (s_stream s) = zlen b + zlen (s_stream s')) as ZS by (rewrite R1; apply zlen_app).
        assert (zlen (s_answers s) = 1 + zlen (s_answers s')) as ZA by (rewrite R3; apply zlen_cons).
        specialize (IH (ret ++ b) s' Ee ltac:(lia) ltac:(rewrite R3 in Hf; cbn in Hf; lia)).
        destruct (read_exactly_loop fuel (ret ++ b) len s') as [r t]. destruct IH as ((used & U1 & U2) & I2 & I3 & I4). rewrite ZR in I2, I3, I4.
        split; [|split; [|split]].
        -- exists (b ++ used). split; [rewrite <- app_assoc, <- U1; exact R1|]. intros b' Eb. rewrite app_assoc. exact (U2 b' Eb).
        -- destruct r as [?|[]]; try exact I2; [|split; [lia|apply I2]]. intros N. exact (I2 (no_refusal_tail s s' a R3 N)).
        -- intros N L1 L2. apply I3; [exact (no_refusal_tail s s' a R3 N)|lia|lia].
        -- intros N L1 L2. apply I4; [exact (no_refusal_tail s s' a R3 N)|lia|lia].
    + destruct e; try contradiction.
      * destruct R as (R1 & R2). split; [exists []; split; [symmetry; exact R2|discriminate]|]. split; [exact R1|]. split; intros N; contradiction.
      * destruct R as (R1 & ->). split; [exists []; split; [reflexivity|discriminate]|]. split; [exact R1|]. rewrite R1. change (zlen (@nil answer)) with 0.
        pose proof (zlen_nonneg (s_stream s)). split; intros; lia.
  - destruct (Z.eqb_spec (zlen ret) len); [|lia]. split; [exists []; split; [reflexivity|]; intros b E; injection E as <-; rewrite app_nil_r; auto|].
    split; [exact I|]. split; [intros; eexists; reflexivity|]. pose proof (zlen_nonneg (s_stream s)). intros; lia.
Qed.

(** An exact read returns the next [len] bytes and leaves the rest, or fails;
    it fails for the end of the stream only if there are too few bytes. *)
Theorem C48_read_exactly :
  forall len s, 0 <= len -> s_eof s = false ->
  let '(r, s') := read_exactly len s in
  match r with
  | Ok b => s_stream s = b ++ s_stream s' /\ zlen b = len /\ s_eof s' = false
  | Err e => (exists lost, s_stream s = lost ++ s_stream s') /\
             match e with
             | FSystem => ~ no_refusal s
             | FEof => zlen (s_stream s) < len
             | FWaiting => s_answers s' = []
             | _ => False
             end
  end /\
  (no_refusal s -> len <= zlen (s_stream s) -> len <= zlen (s_answers s) -> exists b, r = Ok b) /\
  (no_refusal s -> zlen (s_stream s) < len -> zlen (s_stream s) < zlen (s_answers s) -> r = Err FEof).
Proof.
  intros len s Hl He. unfold read_exactly.
  pose proof (read_exactly_spec len (S (length (s_answers s))) [] s He Hl ltac:(lia)) as R. change (zlen (@nil Z)) with 0 in R.
  destruct (read_exactly_loop _ [] len s) as [r s']. destruct R as ((used & U1 & U2) & R2 & R3 & R4). split; [|split].
  - destruct r as [b|e].
    + destruct (U2 b eq_refl) as (-> & L & E). auto.
    + split; [exists used; exact U1|]. destruct e; try exact R2. lia.
  - intros N L1 L2. apply R3; [exact N|lia|lia].
  - intros N L1 L2. apply R4; [exact N|lia|lia].
Qed.

(** After the end of the stream was seen nothing is read. *)
Theorem C48_after_eof : forall len s, 1 <= len -> s_eof s = true -> read_exactly len s = (Err FEof, s).
Proof.
  intros len s Hl He. unfold read_exactly. cbn [read_exactly_loop]. change (zlen (@nil Z)) with 0. destruct (Z.ltb_spec 0 len); [|lia].
  unfold read. rewrite He. reflexivity.
Qed.

Lemma getline_spec : forall fuel ret s, s_eof s = false -> (length (s_answers s) < fuel)%nat ->
  let '(r, s') := getline_loop fuel ret s in
  match r with
  | Ok line => exists used, line = ret ++ used /\ ~ In 10 used /\
               ((s_eof s' = false /\ s_stream s = used ++ 10 :: s_stream s') \/ (s_eof s' = true /\ s_stream s = used /\ s_stream s' = []))
  | Err FSystem => ~ no_refusal s
  | Err FWaiting => s_answers s' = [] /\ exists used, s_stream s = used ++ s_stream s' /\ length used = length (s_answers s)
  | Err _ => False
  end.
Proof.
  induction fuel as [|fuel IH]; intros ret s He Hf; [lia|]. cbn [getline_loop].
  pose proof (read_spec 1 s ltac:(lia) He) as R. destruct (read 1 s) as [[b|e] s'].
  - destruct R as (R1 & R2 & (a & R3) & R4 & R5). destruct (s_eof s') eqn:Ee.
    + destruct (R4 eq_refl) as (-> & ES). cbn [orb]. exists []. rewrite app_nil_r. split; [reflexivity|]. split; [auto|]. right.
      cbn [app] in R1. split; [exact Ee|]. split; [exact ES|congruence].
    + specialize (R5 eq_refl). destruct b as [|x [|y b]]; [cbn in R5; lia| |rewrite !zlen_cons in R2; pose proof (zlen_nonneg b); lia]. cbn [orb].
      destruct (Z.eq_dec x 10) as [->|Hx].
      * exists []. rewrite app_nil_r. split; [reflexivity|]. split; [auto|]. left. auto.
      * assert ((match [x] with [10] => true | _ => false end) = false) as ->.
        { destruct (Z.eqb_spec x 10) as [|_]; [contradiction|]. clear -Hx. destruct x as [|p|p]; try reflexivity. repeat (destruct p as [p|p|]; try reflexivity). congruence. }
        specialize (IH (ret ++ [x]) s' Ee ltac:(rewrite R3 in Hf; cbn in Hf; lia)). destruct (getline_loop fuel (ret ++ [x]) s') as [r t].
        destruct r as [line|e].
        -- destruct IH as (used & -> & NI & D). exists (x :: used). rewrite <- app_assoc. split; [reflexivity|]. split; [intros [H|H]; [congruence|exact (NI H)]|].
           rewrite R1. destruct D as [(D1 & ->)|(D1 & -> & D3)]; [left|right]; auto.
        -- destruct e; try contradiction.
           ++ intros N. exact (IH (no_refusal_tail s s' a R3 N)).
           ++ destruct IH as (I1 & used & I2 & I3). split; [exact I1|]. exists (x :: used). rewrite R1, I2, R3. split; [reflexivity|]. cbn [length]. lia.
  - destruct e; try contradiction; [exact (proj1 R)|]. destruct R as (R1 & ->). split; [exact R1|]. exists []. rewrite R1. auto.
Qed.

(** A line is what comes before the next newline, or before the end of the
    stream. *)
Theorem C48_getline :
  forall s, s_eof s = false ->
  let '(r, s') := getline s in
  match r with
  | Ok line => ~ In 10 line /\
               ((s_eof s' = false /\ s_stream s = line ++ 10 :: s_stream s') \/ (s_eof s' = true /\ s_stream s = line /\ s_stream s' = []))
  | Err FSystem => ~ no_refusal s
  | Err FWaiting => zlen (s_answers s) <= zlen (s_stream s)
  | Err _ => False
  end.
Proof.
  intros s He. unfold getline. pose proof (getline_spec (S (length (s_answers s))) [] s He ltac:(lia)) as R.
  destruct (getline_loop _ [] s) as [r s']. destruct r as [line|e].
  - destruct R as (used & -> & NI & D). cbn [app]. auto.
  - destruct e; try exact R. destruct R as (_ & used & E & L). rewrite E, zlen_app. pose proof (zlen_nonneg (s_stream s')). unfold zlen in *. lia.
Qed.

(** ** Examples *)

Example C48_write_example : write_chunk (chunk_of [1; 2; 3; 4; 5]) [Upto 2; Upto 1; Upto 9] = (Ok tt, [1; 2; 3; 4; 5]) /\
  write_chunk (chunk_of [1; 2; 3]) [Upto 2; Upto 0] = (Err FZero, [1; 2]) /\ write_string [7; 8; 9] true 0 [Upto 1; Upto 5] = (Ok 3, [7; 8; 9]).
Proof. repeat split; vm_compute; reflexivity. Qed.

Example C48_read_example :
  read_exactly 4 (mkSource [1; 2; 3; 4; 5] [Upto 1; Upto 2; Upto 7] false) = (Ok [1; 2; 3; 4], mkSource [5] [] false) /\
  read_exactly 4 (mkSource [1; 2; 3] [Upto 5; Upto 5] false) = (Err FEof, mkSource [] [] true) /\
  getline (mkSource [65; 66; 10; 67] (repeat (Upto 1) 4) false) = (Ok [65; 66], mkSource [67] [Upto 1] false).
Proof. repeat split; vm_compute; reflexivity. Qed.

Print Assumptions C48_write_chunk.
Print Assumptions C48_write_string.
Print Assumptions C48_write_once.
Print Assumptions C48_read_exactly.
Print Assumptions C48_after_eof.
Print Assumptions C48_getline.
