(** Property C47: raw video files round trip. *)
From Verif Require Import Base ChunkModel ChunkProofs FdModel PropFd MVModel FrameModel RasterModel RasterProofs.
From Verif Require Import PropLoopFilter ReconProofs StateProofs PropState Y4mModel.

(** ** The file descriptor *)

(** A descriptor that works: not at its end, no errors, and answers enough for
    everything that is left. *)
Definition supplied (s : source) : Prop :=
  s_eof s = false /\ no_refusal s /\ zlen (s_stream s) < zlen (s_answers s).

Lemma read_exactly_loop_supplied len : forall fuel ret s b s', supplied s -> 0 <= len ->
  read_exactly_loop fuel ret len s = (Ok b, s') -> supplied s'.
Proof.
  induction fuel as [|fuel IH]; intros ret s b s' SU L E; cbn [read_exactly_loop] in E.
  - destruct (zlen ret <? len); [discriminate|]. destruct (zlen ret =? len); [|discriminate]. injection E as _ <-. exact SU.
  - destruct (Z.ltb_spec (zlen ret) len) as [HL|HL].
    2:{ destruct (zlen ret =? len); [|discriminate]. injection E as _ <-. exact SU. }
    destruct SU as (SE & SN & SA). pose proof (read_spec (len - zlen ret) s ltac:(lia) SE) as R.
    destruct (read (len - zlen ret) s) as [[c|e] t]; [|discriminate]. destruct (s_eof t) eqn:ET; [discriminate|].
    destruct R as (R1 & R2 & (a & R3) & R4 & R5). specialize (R5 eq_refl).
    refine (IH (ret ++ c) t b s' _ L E). split; [exact ET|]. split; [exact (no_refusal_tail s t a R3 SN)|].
    rewrite R1, R3, zlen_app, zlen_cons in SA. lia.
Qed.

Lemma read_exactly_supplied len s : supplied s -> 0 <= len <= zlen (s_stream s) ->
  exists s', read_exactly len s = (Ok (firstn (Z.to_nat len) (s_stream s)), s') /\
    s_stream s' = skipn (Z.to_nat len) (s_stream s) /\ supplied s'.
Proof.
  intros SU L. pose proof SU as (SE & SN & SA). pose proof (C48_read_exactly len s ltac:(lia) SE) as R.
  destruct (read_exactly len s) as [r s'] eqn:E. destruct R as (R1 & R2 & _).
  destruct (R2 SN ltac:(lia) ltac:(lia)) as [b ->]. destruct R1 as (A & B & C).
  assert (HB : length b = Z.to_nat len) by (unfold zlen in B; lia).
  exists s'. rewrite A, firstn_app, skipn_app, HB, Nat.sub_diag, firstn_O, skipn_O, app_nil_r, <- HB, firstn_all, skipn_all.
  split; [reflexivity|]. split; [reflexivity|]. exact (read_exactly_loop_supplied len _ _ _ _ _ SU ltac:(lia) E).
Qed.

Lemma getline_loop_supplied : forall fuel ret s line s', supplied s ->
  getline_loop fuel ret s = (Ok line, s') -> s_eof s' = false -> supplied s'.
Proof.
  induction fuel as [|fuel IH]; intros ret s line s' SU E EF; cbn [getline_loop] in E; [discriminate|].
  destruct SU as (SE & SN & SA). pose proof (read_spec 1 s ltac:(lia) SE) as R.
  destruct (read 1 s) as [[c|e] t]; [|discriminate]. destruct R as (R1 & R2 & (a & R3) & R4 & R5).
  assert (ST : s_eof t = false -> supplied t).
  { intros ET. specialize (R5 ET). split; [exact ET|]. split; [exact (no_refusal_tail s t a R3 SN)|].
    rewrite R1, R3, zlen_app, zlen_cons in SA. lia. }
  destruct (s_eof t) eqn:ET; cbn [orb] in E; [injection E as _ <-; congruence|].
  destruct (match c with [10] => true | _ => false end); [injection E as _ <-; apply ST; reflexivity|].
  exact (IH (ret ++ c) t line s' (ST eq_refl) E EF).
Qed.

Lemma no_newline_prefix (a b c d : list Z) : ~ In 10 a -> ~ In 10 c -> a ++ 10 :: b = c ++ 10 :: d -> a = c /\ b = d.
Proof.
  revert c. induction a as [|x a IH]; intros c NA NC E.
  - destruct c as [|y c]; [injection E as <-; auto|]. injection E as <- _. exfalso. apply NC. left. reflexivity.
  - destruct c as [|y c]; [injection E as -> _; exfalso; apply NA; left; reflexivity|]. injection E as <- E.
    destruct (IH c ltac:(intros I; apply NA; right; exact I) ltac:(intros I; apply NC; right; exact I) E) as [<- <-]. auto.
Qed.

Lemma getline_supplied s line rest : supplied s -> s_stream s = line ++ 10 :: rest -> ~ In 10 line ->
  exists s', getline s = (Ok line, s') /\ s_stream s' = rest /\ supplied s'.
Proof.
  intros SU ES NI. pose proof SU as (SE & SN & SA). pose proof (C48_getline s SE) as R.
  destruct (getline s) as [[l|e] s'] eqn:E.
  - destruct R as (N2 & [(A & B)|(A & B & C)]).
    + rewrite ES in B. destruct (no_newline_prefix _ _ _ _ NI N2 B) as [E1 E2]. subst l. exists s'. split; [reflexivity|]. split; [symmetry; exact E2|].
      exact (getline_loop_supplied _ _ _ _ _ SU E A).
    + exfalso. apply N2. rewrite <- B, ES. apply in_or_app. right. left. reflexivity.
  - exfalso. destruct e; try contradiction. lia.
Qed.

Lemma getline_end s : supplied s -> s_stream s = [] -> exists s', getline s = (Ok [], s') /\ s_eof s' = true.
Proof.
  intros SU ES. pose proof SU as (SE & SN & SA). pose proof (C48_getline s SE) as R.
  destruct (getline s) as [[l|e] s'] eqn:E.
  - destruct R as (N2 & [(A & B)|(A & B & C)]).
    + rewrite ES in B. destruct l; discriminate.
    + rewrite ES in B. subst l. exists s'. auto.
  - exfalso. destruct e; try contradiction. lia.
Qed.

(** ** Planes *)

Lemma nth_skipn {A} (d : A) n : forall (l : list A) i, nth i (skipn n l) d = nth (n + i) l d.
Proof. induction n as [|n IH]; intros l i; [reflexivity|]. destruct l as [|a l]; [destruct i; reflexivity|]. apply IH. Qed.

Lemma store_row_spec p row data : shaped p -> 0 <= row < pl_h p -> zlen data <= pl_w p ->
  exists p', store_row p row data = Some p' /\ shaped p' /\ same_dims p' p /\
    forall x y, inside p x y = true ->
      at_px p' x y = if (y =? row) && (x <? zlen data) then nth (Z.to_nat x) data 0 else at_px p x y.
Proof.
  intros S HR HD. pose proof S as (W & H & L). unfold store_row.
  assert (I0 : inside p 0 row = true) by (apply inside_iff; lia). rewrite I0. cbn [andb].
  pose proof (zlen_nonneg data). destruct (Z.leb_spec (row * pl_w p + zlen data) (zlen (pl_px p))) as [Q|Q]; [|nia].
  eexists. split; [reflexivity|]. assert (A1 : 0 <= row * pl_w p) by nia. split; [|split; [split; reflexivity|]].
  - unfold shaped. cbn [pl_w pl_h pl_px]. split; [exact W|]. split; [exact H|].
    rewrite <- L. unfold zlen in *. rewrite !app_length, firstn_length, skipn_length. lia.
  - intros x y I. apply inside_iff in I. unfold at_px, pix_index. cbn [pl_w pl_px].
    set (n := Z.to_nat (row * pl_w p)) in *. assert (LN : length (firstn n (pl_px p)) = n) by (rewrite firstn_length; unfold zlen in *; lia).
    destruct (Z.eqb_spec y row) as [->|NE]; cbn [andb].
    + rewrite app_nth2 by (rewrite LN; unfold n; nia). rewrite LN. replace (Z.to_nat (row * pl_w p + x) - n)%nat with (Z.to_nat x) by (unfold n; lia).
      destruct (Z.ltb_spec x (zlen data)) as [Q1|Q1].
      * apply app_nth1. unfold zlen in *. lia.
      * rewrite app_nth2 by (unfold zlen in *; lia). rewrite nth_skipn. f_equal. unfold zlen in *. lia.
    + destruct (Z.lt_ge_cases y row) as [Q1|Q1].
      * rewrite app_nth1 by (rewrite LN; unfold n; nia). rewrite <- (firstn_skipn n (pl_px p)) at 2. rewrite app_nth1 by (rewrite LN; unfold n; nia). reflexivity.
      * rewrite app_nth2 by (rewrite LN; unfold n; nia). rewrite app_nth2 by (rewrite LN; unfold n, zlen in *; nia).
        rewrite nth_skipn, LN. f_equal. unfold n, zlen in *. nia.
Qed.

Lemma nth_firstn_lt {A} (d : A) : forall n (l : list A) i, (i < n)%nat -> nth i (firstn n l) d = nth i l d.
Proof. induction n as [|n IH]; intros l i H; [lia|]. destruct l as [|a l]; [reflexivity|]. destruct i as [|i]; [reflexivity|]. cbn [firstn nth]. apply IH. lia. Qed.

Definition inb (x : Z) (l : list Z) : bool := existsb (Z.eqb x) l.
Lemma inb_zseq x n : inb x (zseq n) = (0 <=? x) && (x <? n).
Proof.
  apply eq_true_iff_eq. unfold inb. rewrite existsb_exists. split.
  - intros (y & I & E). apply zseq_in in I. lia.
  - intros H. exists x. split; [apply zseq_in; lia|lia].
Qed.
Lemma zrange_in a b x : In x (zrange a b) <-> a <= x < b.
Proof.
  unfold zrange. rewrite in_map_iff. split.
  - intros (y & <- & I). apply zseq_in in I. lia.
  - intros H. exists (x - a). split; [lia|apply zseq_in; lia].
Qed.
Lemma inb_zrange x a b : inb x (zrange a b) = (a <=? x) && (x <? b).
Proof.
  apply eq_true_iff_eq. unfold inb. rewrite existsb_exists. split.
  - intros (y & I & E). apply zrange_in in I. lia.
  - intros H. exists x. split; [apply zrange_in; lia|lia].
Qed.

(** [p'] has the shape of [p] and the pixels [f]. *)
Definition becomes (p p' : plane) (f : Z -> Z -> Z) : Prop :=
  shaped p' /\ same_dims p' p /\ forall x y, inside p x y = true -> at_px p' x y = f x y.

Lemma fill_row row v : forall l p, shaped p -> (forall c, In c l -> inside p c row = true) ->
  exists p', ofold (fun p c => pset p c row v) l p = Some p' /\
    becomes p p' (fun x y => if (y =? row) && inb x l then v else at_px p x y).
Proof.
  induction l as [|c l IH]; intros p S I; cbn [ofold].
  - exists p. split; [reflexivity|]. split; [exact S|]. split; [apply same_dims_refl|]. intros x y _. cbn [inb existsb]. rewrite andb_false_r. reflexivity.
  - assert (I0 : inside p c row = true) by (apply I; left; reflexivity). rewrite pset_some by exact I0. cbn [obind].
    destruct (IH (put_px p c row v)) as (p' & E & S' & D' & A').
    + apply shaped_put, S.
    + intros c' I'. rewrite (inside_dims _ p) by apply same_dims_put. apply I. right. exact I'.
    + exists p'. split; [exact E|]. split; [exact S'|]. split; [eapply same_dims_trans; [exact D'|apply same_dims_put]|].
      intros x y Q. rewrite A' by (rewrite (inside_dims _ p) by apply same_dims_put; exact Q). rewrite at_put by assumption.
      cbn [inb existsb]. fold (inb x l). destruct (Z.eqb_spec y row) as [->|]; cbn [andb].
      * rewrite (Z.eqb_sym c x), Z.eqb_refl, andb_true_r. destruct (x =? c), (inb x l); reflexivity.
      * replace (row =? y) with false by lia. rewrite andb_false_r. reflexivity.
Qed.

Lemma extend_right_spec dw : forall R p, shaped p -> 0 < dw <= pl_w p -> (forall y, In y R -> 0 <= y < pl_h p) ->
  exists p', ofold (fun p row => let? v := pget p (dw - 1) row in ofold (fun p column => pset p column row v) (zrange dw (pl_w p)) p) R p = Some p' /\
    becomes p p' (fun x y => if inb y R && (dw <=? x) then at_px p (dw - 1) y else at_px p x y).
Proof.
  induction R as [|row R IH]; intros p S W I; cbn [ofold].
  - exists p. split; [reflexivity|]. split; [exact S|]. split; [apply same_dims_refl|reflexivity].
  - assert (HR : 0 <= row < pl_h p) by (apply I; left; reflexivity).
    rewrite pget_some by (try exact S; apply inside_iff; lia). cbn [obind].
    destruct (fill_row row (at_px p (dw - 1) row) (zrange dw (pl_w p)) p S) as (p1 & E1 & S1 & D1 & A1).
    { intros c Q. apply zrange_in in Q. apply inside_iff. lia. }
    rewrite E1. cbn [obind]. pose proof D1 as [DW DH].
    destruct (IH p1 S1 ltac:(lia)) as (p' & E & S' & D' & A').
    { intros y Q. rewrite DH. apply I. right. exact Q. }
    exists p'. split; [exact E|]. split; [exact S'|]. split; [eapply same_dims_trans; [exact D'|exact D1]|].
    intros x y Q. assert (Q' : inside p1 x y = true) by (rewrite (inside_dims _ p) by exact D1; exact Q).
    rewrite A' by exact Q'. apply inside_iff in Q. rewrite A1 by (apply inside_iff; lia). rewrite A1 by (apply inside_iff; lia).
    rewrite !inb_zrange. cbn [inb existsb]. fold (inb y R). destruct (inb y R); cbn [andb orb].
    + replace ((dw <=? dw - 1) && (dw - 1 <? pl_w p)) with false by lia. rewrite andb_false_r, orb_true_r. cbn [andb].
      destruct (Z.leb_spec dw x); [reflexivity|]. cbn [andb]. rewrite andb_false_r. reflexivity.
    + rewrite orb_false_r. destruct (Z.eqb_spec y row) as [->|]; cbn [andb]; [|reflexivity].
      destruct (Z.leb_spec dw x); cbn [andb]; [|reflexivity]. destruct (Z.ltb_spec x (pl_w p)); [reflexivity|lia].
Qed.

Lemma copy_row row src : forall l p, shaped p -> row <> src -> 0 <= row < pl_h p -> 0 <= src < pl_h p -> (forall c, In c l -> 0 <= c < pl_w p) ->
  exists p', ofold (fun p c => let? v := pget p c src in pset p c row v) l p = Some p' /\
    becomes p p' (fun x y => if (y =? row) && inb x l then at_px p x src else at_px p x y).
Proof.
  induction l as [|c l IH]; intros p S N HR HS I; cbn [ofold].
  - exists p. split; [reflexivity|]. split; [exact S|]. split; [apply same_dims_refl|]. intros x y _. cbn [inb existsb]. rewrite andb_false_r. reflexivity.
  - assert (I0 : 0 <= c < pl_w p) by (apply I; left; reflexivity).
    rewrite pget_some by (try exact S; apply inside_iff; lia). cbn [obind]. rewrite pset_some by (apply inside_iff; lia). cbn [obind].
    destruct (IH (put_px p c row (at_px p c src))) as (p' & E & S' & D' & A');
      [apply shaped_put, S|exact N|exact HR|exact HS|intros c' I'; apply I; right; exact I'|].
    exists p'. split; [exact E|]. split; [exact S'|]. split; [eapply same_dims_trans; [exact D'|apply same_dims_put]|].
      intros x y Q. rewrite A' by (rewrite (inside_dims _ p) by apply same_dims_put; exact Q). apply inside_iff in Q.
      rewrite !at_put by (try exact S; apply inside_iff; lia). cbn [inb existsb]. fold (inb x l).
      replace (row =? src) with false by lia. rewrite andb_false_r. destruct (Z.eqb_spec y row) as [->|]; cbn [andb].
      * rewrite Z.eqb_refl, andb_true_r, (Z.eqb_sym c x). destruct (Z.eqb_spec x c) as [->|]; cbn [orb]; [|reflexivity].
        destruct (inb c l); reflexivity.
      * replace (row =? y) with false by lia. rewrite andb_false_r. reflexivity.
Qed.

Lemma extend_bottom_spec dw dh : forall R p, shaped p -> 0 < dw <= pl_w p -> 0 < dh <= pl_h p -> (forall y, In y R -> dh <= y < pl_h p) ->
  exists p', ofold (fun p row => ofold (fun p column => let? v := pget p column (dh - 1) in pset p column row v) (zseq dw) p) R p = Some p' /\
    becomes p p' (fun x y => if inb y R && (x <? dw) then at_px p x (dh - 1) else at_px p x y).
Proof.
  induction R as [|row R IH]; intros p S W H I; cbn [ofold].
  - exists p. split; [reflexivity|]. split; [exact S|]. split; [apply same_dims_refl|reflexivity].
  - assert (HR : dh <= row < pl_h p) by (apply I; left; reflexivity).
    destruct (copy_row row (dh - 1) (zseq dw) p S ltac:(lia) ltac:(lia) ltac:(lia)) as (p1 & E1 & S1 & D1 & A1).
    { intros c Q. apply zseq_in in Q. lia. }
    rewrite E1. cbn [obind]. pose proof D1 as [DW DH].
    destruct (IH p1 S1 ltac:(lia) ltac:(lia)) as (p' & E & S' & D' & A').
    { intros y Q. rewrite DH. apply I. right. exact Q. }
    exists p'. split; [exact E|]. split; [exact S'|]. split; [eapply same_dims_trans; [exact D'|exact D1]|].
    intros x y Q. assert (Q' : inside p1 x y = true) by (rewrite (inside_dims _ p) by exact D1; exact Q).
    rewrite A' by exact Q'. apply inside_iff in Q. rewrite !A1 by (apply inside_iff; lia).
    rewrite !inb_zseq. cbn [inb existsb]. fold (inb y R). replace (dh - 1 =? row) with false by lia. cbn [andb].
    replace (0 <=? x) with true by lia. cbn [andb].
    destruct (inb y R), (y =? row), (x <? dw); reflexivity.
Qed.

Lemma extend_corner_spec dw v : forall R p, shaped p -> 0 < dw <= pl_w p -> (forall y, In y R -> 0 <= y < pl_h p) ->
  exists p', ofold (fun p row => ofold (fun p column => pset p column row v) (zrange dw (pl_w p)) p) R p = Some p' /\
    becomes p p' (fun x y => if inb y R && (dw <=? x) then v else at_px p x y).
Proof.
  induction R as [|row R IH]; intros p S W I; cbn [ofold].
  - exists p. split; [reflexivity|]. split; [exact S|]. split; [apply same_dims_refl|reflexivity].
  - assert (HR : 0 <= row < pl_h p) by (apply I; left; reflexivity).
    destruct (fill_row row v (zrange dw (pl_w p)) p S) as (p1 & E1 & S1 & D1 & A1).
    { intros c Q. apply zrange_in in Q. apply inside_iff. lia. }
    rewrite E1. cbn [obind]. pose proof D1 as [DW DH].
    destruct (IH p1 S1 ltac:(lia)) as (p' & E & S' & D' & A').
    { intros y Q. rewrite DH. apply I. right. exact Q. }
    exists p'. split; [exact E|]. split; [exact S'|]. split; [eapply same_dims_trans; [exact D'|exact D1]|].
    intros x y Q. assert (Q' : inside p1 x y = true) by (rewrite (inside_dims _ p) by exact D1; exact Q).
    rewrite A' by exact Q'. rewrite A1 by exact Q. apply inside_iff in Q.
    rewrite !inb_zrange. cbn [inb existsb]. fold (inb y R). replace (x <? pl_w p) with true by lia. rewrite andb_true_r.
    destruct (inb y R), (y =? row), (dw <=? x); reflexivity.
Qed.

(** Every pixel outside of the displayed rectangle becomes the nearest pixel
    inside. *)
Lemma edge_extend_spec dw dh p : shaped p -> 0 < dw <= pl_w p -> 0 < dh <= pl_h p ->
  exists p', edge_extend_component dw dh p = Some p' /\
    becomes p p' (fun x y => at_px p (Z.min x (dw - 1)) (Z.min y (dh - 1))).
Proof.
  intros S W H. unfold edge_extend_component, extend_right.
  destruct (extend_right_spec dw (zseq dh) p S W) as (p1 & E1 & S1 & [W1 H1] & A1).
  { intros y Q. apply zseq_in in Q. lia. }
  rewrite E1. cbn [obind]. unfold extend_bottom.
  destruct (extend_bottom_spec dw dh (zrange dh (pl_h p1)) p1 S1 ltac:(lia) ltac:(lia)) as (p2 & E2 & S2 & [W2 H2] & A2).
  { intros y Q. apply zrange_in in Q. lia. }
  rewrite E2. cbn [obind]. unfold extend_corner. rewrite pget_some by (try exact S2; apply inside_iff; lia). cbn [obind].
  destruct (extend_corner_spec dw (at_px p2 (dw - 1) (dh - 1)) (zrange dh (pl_h p2)) p2 S2 ltac:(lia)) as (p3 & E3 & S3 & [W3 H3] & A3).
  { intros y Q. apply zrange_in in Q. lia. }
  exists p3. split; [exact E3|]. split; [exact S3|]. split; [split; congruence|].
  intros x y Q. apply inside_iff in Q. rewrite A3 by (apply inside_iff; lia). rewrite !A2 by (apply inside_iff; lia).
  rewrite !A1 by (apply inside_iff; lia). rewrite !inb_zrange, !inb_zseq.
  replace (dw <=? dw - 1) with false by lia. replace (dh <=? dh - 1) with false by lia. rewrite !andb_false_r. cbn [andb].
  replace (y <? pl_h p2) with true by lia. replace (y <? pl_h p1) with true by lia. replace (0 <=? y) with true by lia.
  replace ((0 <=? dh - 1) && (dh - 1 <? dh)) with true by lia. rewrite !andb_true_r. cbn [andb].
  destruct (Z.leb_spec dh y), (Z.leb_spec dw x), (Z.ltb_spec y dh), (Z.ltb_spec x dw); cbn [andb]; try lia; f_equal; lia.
Qed.

(** ** Rows of a picture in a stream *)

(** After reading rows [k], ..., [k+n-1] of [len] bytes each. *)
Lemma read_rows_any len : forall n k p s, s_eof s = false -> shaped p -> 0 <= len <= pl_w p -> Z.of_nat (k + n) <= pl_h p ->
  match read_rows (map Z.of_nat (seq k n)) len p s with
  | (Ok p', s') => exists data, s_stream s = data ++ s_stream s' /\ zlen data = Z.of_nat n * len /\ s_eof s' = false /\
      becomes p p' (fun x y => if (x <? len) && (Z.of_nat k <=? y) && (y <? Z.of_nat (k + n)) then nth (Z.to_nat ((y - Z.of_nat k) * len + x)) data 0 else at_px p x y)
  | (Err (YFd e), s') => match e with FSystem | FEof | FWaiting => True | _ => False end
  | (Err _, _) => False
  end.
Proof.
  induction n as [|n IH]; intros k p s SE S W H; cbn [seq map read_rows].
  - exists []. split; [reflexivity|]. split; [reflexivity|]. split; [exact SE|]. split; [exact S|]. split; [apply same_dims_refl|].
    intros x y _. replace ((x <? len) && (Z.of_nat k <=? y) && (y <? Z.of_nat (k + 0))) with false by lia. reflexivity.
  - pose proof (C48_read_exactly len s ltac:(lia) SE) as R. destruct (read_exactly len s) as [[row|e] s1]; destruct R as (R & _).
    2:{ destruct R as [_ R]. destruct e; auto. }
    destruct R as (R1 & R2 & R3).
    destruct (store_row_spec p (Z.of_nat k) row S ltac:(lia) ltac:(lia)) as (p1 & E1 & S1 & D1 & A1). rewrite E1. pose proof D1 as [DW DH].
    specialize (IH (Datatypes.S k) p1 s1 R3 S1 ltac:(lia) ltac:(lia)).
    destruct (read_rows (map Z.of_nat (seq (Datatypes.S k) n)) len p1 s1) as [[p'|e] s']; [|exact IH].
    destruct IH as (data & B1 & B2 & B3 & S' & D' & A'). exists (row ++ data).
    split; [rewrite R1, B1, app_assoc; reflexivity|]. split; [rewrite zlen_app, B2, R2; lia|]. split; [exact B3|].
    split; [exact S'|]. split; [eapply same_dims_trans; [exact D'|exact D1]|].
    intros x y Q. rewrite A' by (rewrite (inside_dims _ p) by exact D1; exact Q). rewrite A1 by exact Q. rewrite R2. apply inside_iff in Q.
    destruct (Z.ltb_spec x len) as [Q1|Q1]; cbn [andb]; [|rewrite andb_false_r; reflexivity]. rewrite andb_true_r.
    destruct (Z.eqb_spec y (Z.of_nat k)) as [->|Q2].
    + replace (Z.of_nat (Datatypes.S k) <=? Z.of_nat k) with false by lia. rewrite Z.leb_refl. cbn [andb].
      replace (Z.of_nat k <? Z.of_nat (k + Datatypes.S n)) with true by lia.
      rewrite app_nth1 by (unfold zlen in *; lia). f_equal. lia.
    + replace (Z.of_nat (Datatypes.S k) <=? y) with (Z.of_nat k <=? y) by lia.
      replace (y <? Z.of_nat (Datatypes.S k + n)) with (y <? Z.of_nat (k + Datatypes.S n)) by lia.
      destruct ((Z.of_nat k <=? y) && (y <? Z.of_nat (k + Datatypes.S n))) eqn:Q3; [|reflexivity].
      rewrite app_nth2 by (unfold zlen in *; nia). f_equal. unfold zlen in *. nia.
Qed.

Lemma read_rows_supplied len : forall rows p s, supplied s -> shaped p -> 0 <= len <= pl_w p -> (forall y, In y rows -> 0 <= y < pl_h p) ->
  zlen rows * len <= zlen (s_stream s) -> exists p' s', read_rows rows len p s = (Ok p', s') /\ supplied s'.
Proof.
  induction rows as [|row rows IH]; intros p s SU S W I L; cbn [read_rows]; [eauto|]. rewrite zlen_cons in L. pose proof (zlen_nonneg rows).
  destruct (read_exactly_supplied len s SU ltac:(nia)) as (s1 & E1 & ES & SU1). rewrite E1.
  assert (LD : zlen (firstn (Z.to_nat len) (s_stream s)) <= len) by (unfold zlen; rewrite firstn_length; lia).
  destruct (store_row_spec p row (firstn (Z.to_nat len) (s_stream s)) S) as (p1 & E2 & S1 & [DW DH] & _); [apply I; left; reflexivity|lia|].
  rewrite E2. apply (IH p1 s1 SU1 S1 ltac:(lia)); [intros y Q; rewrite DH; apply I; right; exact Q|].
  rewrite ES. unfold zlen in *. rewrite skipn_length. nia.
Qed.

(** [p] is what is shown after [data] was read as [rh] rows of [rw] pixels into
    a plane that held [old], of which [dw] times [dh] pixels are displayed. *)
Definition taken (dw dh rw rh : Z) (data : list Z) (old p : plane) : Prop :=
  forall x y, inside p x y = true ->
  let x' := Z.min x (dw - 1) in
  let y' := Z.min y (dh - 1) in
  at_px p x y = if (x' <? rw) && (y' <? rh) then nth (Z.to_nat (y' * rw + x')) data 0 else at_px old x' y'.

Lemma plane_read w h dw dh rw rh old s : sized w h old -> bytes_ok (s_stream s) -> s_eof s = false ->
  0 < dw <= w -> 0 < dh <= h -> 0 <= rw <= dw -> 0 <= rh <= dh ->
  match read_rows (zseq rh) rw old s with
  | (Ok p, s') => exists data, s_stream s = data ++ s_stream s' /\ zlen data = rh * rw /\ s_eof s' = false /\
      shaped p /\ same_dims p old /\
      exists p', edge_extend_component dw dh p = Some p' /\ sized w h p' /\ taken dw dh rw rh data old p'
  | (Err (YFd e), s') => match e with FSystem | FEof | FWaiting => True | _ => False end
  | (Err _, _) => False
  end.
Proof.
  intros (PO & EW & EH) BS SE DW DH RW RH. pose proof PO as [S _]. unfold zseq.
  pose proof (read_rows_any rw (Z.to_nat rh) 0 old s SE S ltac:(lia) ltac:(lia)) as R.
  destruct (read_rows _ rw old s) as [[p|e] s']; [|exact R]. destruct R as (data & A & B & C & Sp & Dp & Ap).
  exists data. split; [exact A|]. split; [lia|]. split; [exact C|]. split; [exact Sp|]. split; [exact Dp|]. pose proof Dp as [D1 D2].
  destruct (edge_extend_spec dw dh p Sp ltac:(lia) ltac:(lia)) as (p' & E & S' & [W' H'] & A').
  exists p'. split; [exact E|]. assert (T : taken dw dh rw rh data old p').
  { intros x y Q. cbv zeta. apply inside_iff in Q. rewrite A' by (apply inside_iff; lia). rewrite Ap by (apply inside_iff; lia).
    cbn [Nat.add]. change (Z.of_nat 0) with 0. rewrite Z.sub_0_r, Z2Nat.id by lia.
    replace (0 <=? Z.min y (dh - 1)) with true by lia. rewrite andb_true_r. reflexivity. }
  split; [|exact T]. split; [|split; congruence]. apply plane_ok_at; [exact S'|].
  intros x y Q. rewrite (T x y Q). apply inside_iff in Q.
  destruct (_ && _) eqn:Q2.
  - assert (BD : bytes_ok data) by (rewrite A in BS; apply Forall_app in BS; apply BS).
    apply (proj1 (Forall_forall _ _) BD). apply nth_In. unfold zlen in B. nia.
  - apply at_px_byte; [exact PO|]. apply inside_iff. lia.
Qed.

Lemma dims_padded w : 0 < w -> w <= 16 * Z.of_nat (mb_dim w) /\ chroma_dim w <= 8 * Z.of_nat (mb_dim w).
Proof. unfold mb_dim, chroma_dim. lia. Qed.

(** Reading a picture, whatever the file holds, however the kernel delivers it
    and whatever was in the recycled picture. *)
Theorem C47_read_picture : forall hd scratch s w h,
  ym_width hd = w -> ym_height hd = h -> 0 < w <= 65520 -> 0 < h <= 65520 ->
  raster_for w h scratch -> bytes_ok (s_stream s) -> s_eof s = false ->
  match get_next_frame hd scratch s with
  | (Ok (Some r), s') =>
      exists y u v, s_stream s = frame_word ++ 10 :: y ++ u ++ v ++ s_stream s' /\ s_eof s' = false /\
        zlen y = h * w /\ zlen u = (h / 2) * (w / 2) /\ zlen v = (h / 2) * (w / 2) /\ raster_for w h r /\
        taken w h w h y (ra_y scratch) (ra_y r) /\
        taken (chroma_dim w) (chroma_dim h) (w / 2) (h / 2) u (ra_u scratch) (ra_u r) /\
        taken (chroma_dim w) (chroma_dim h) (w / 2) (h / 2) v (ra_v scratch) (ra_v r)
  | (Ok None, s') => ~ In 10 (s_stream s) /\ s_stream s' = []
  | (Err YFormat, _) => exists line rest, s_stream s = line ++ 10 :: rest /\ ~ In 10 line /\ line <> frame_word
  | (Err (YFd FSystem), _) => True
  | (Err (YFd FWaiting), _) => True
  | (Err (YFd FEof), _) => True
  | (Err _, _) => False
  end.
Proof.
  intros hd scratch s w h EW EH Hw Hh (RO & DW & DH) BS SE. apply raster_sized in RO. destruct RO as (RY & RU & RV).
  unfold get_next_frame. rewrite EW, EH. replace (65520 <? w) with false by lia. replace (65520 <? h) with false by lia. cbn [orb].
  pose proof (C48_getline s SE) as G. destruct (getline s) as [[line|e] s1]; [|destruct e; auto]. destruct G as (NI & G).
  destruct G as [(E1 & G)|(E1 & G & G')]; rewrite E1.
  2:{ split; [rewrite G; exact NI|exact G']. }
  unfold eq_bytes. destruct (list_eq_dec Z.eq_dec line frame_word) as [->|NL]; cbn [negb]; [|exists line, (s_stream s1); auto].
  assert (B1 : bytes_ok (s_stream s1)) by (rewrite G in BS; apply Forall_app in BS; destruct BS as [_ BS]; inversion BS; assumption).
  destruct (dims_padded w ltac:(lia)) as [P1 P2]. destruct (dims_padded h ltac:(lia)) as [P3 P4].
  assert (CW : 0 < chroma_dim w /\ w / 2 <= chroma_dim w) by (unfold chroma_dim; lia).
  assert (CH : 0 < chroma_dim h /\ h / 2 <= chroma_dim h) by (unfold chroma_dim; lia).
  pose proof (plane_read _ _ w h w h _ s1 RY B1 E1 ltac:(lia) ltac:(lia) ltac:(lia) ltac:(lia)) as Y.
  destruct (read_rows (zseq h) w (ra_y scratch) s1) as [[y|e] s2]; [|destruct e; try contradiction; destruct e; auto].
  destruct Y as (dy & Y1 & Y2 & Y3 & _ & _ & y' & EY & SY & TY).
  assert (B2 : bytes_ok (s_stream s2)) by (rewrite Y1 in B1; apply Forall_app in B1; apply B1).
  pose proof (plane_read _ _ (chroma_dim w) (chroma_dim h) (w / 2) (h / 2) _ s2 RU B2 Y3 ltac:(lia) ltac:(lia) ltac:(lia) ltac:(lia)) as U.
  destruct (read_rows (zseq (h / 2)) (w / 2) (ra_u scratch) s2) as [[u|e] s3]; [|destruct e; try contradiction; destruct e; auto].
  destruct U as (du & U1 & U2 & U3 & _ & _ & u' & EU & SU & TU).
  assert (B3 : bytes_ok (s_stream s3)) by (rewrite U1 in B2; apply Forall_app in B2; apply B2).
  pose proof (plane_read _ _ (chroma_dim w) (chroma_dim h) (w / 2) (h / 2) _ s3 RV B3 U3 ltac:(lia) ltac:(lia) ltac:(lia) ltac:(lia)) as V.
  destruct (read_rows (zseq (h / 2)) (w / 2) (ra_v scratch) s3) as [[v|e] s4]; [|destruct e; try contradiction; destruct e; auto].
  destruct V as (dv & V1 & V2 & V3 & _ & _ & v' & EV & SV & TV).
  unfold edge_extend. cbn [ra_dw ra_dh ra_y ra_u ra_v]. rewrite DW, DH, EY. cbn [obind]. rewrite EU. cbn [obind]. rewrite EV. cbn [obind].
  exists dy, du, dv. split; [rewrite G, Y1, U1, V1; reflexivity|]. split; [exact V3|]. split; [exact Y2|]. split; [exact U2|]. split; [exact V2|].
  split; [|auto]. split; [|split; reflexivity]. apply raster_sized. auto.
Qed.

(** It succeeds if the descriptor works and the picture is complete. *)
Lemma read_picture_supplied hd scratch s w h body :
  ym_width hd = w -> ym_height hd = h -> 0 < w <= 65520 -> 0 < h <= 65520 ->
  raster_for w h scratch -> supplied s -> bytes_ok (s_stream s) ->
  s_stream s = frame_word ++ 10 :: body -> h * w + 2 * ((h / 2) * (w / 2)) <= zlen body ->
  exists r s', get_next_frame hd scratch s = (Ok (Some r), s') /\ supplied s'.
Proof.
  intros EW EH Hw Hh RF SU BS ES LB. destruct RF as (RO & DW & DH). apply raster_sized in RO. destruct RO as (RY & RU & RV).
  unfold get_next_frame. rewrite EW, EH. replace (65520 <? w) with false by lia. replace (65520 <? h) with false by lia. cbn [orb].
  destruct (getline_supplied s frame_word body SU ES) as (s1 & -> & E1 & SU1); [intros I; cbn in I; lia|].
  rewrite (proj1 SU1). unfold eq_bytes. destruct (list_eq_dec Z.eq_dec frame_word frame_word) as [_|C]; [|congruence]. cbn [negb].
  assert (B1 : bytes_ok (s_stream s1)) by (rewrite ES in BS; rewrite E1; apply Forall_app in BS; destruct BS as [_ BS]; inversion BS; assumption).
  destruct (dims_padded w ltac:(lia)) as [P1 P2]. destruct (dims_padded h ltac:(lia)) as [P3 P4].
  assert (CW : 0 < chroma_dim w /\ w / 2 <= chroma_dim w) by (unfold chroma_dim; lia).
  assert (CH : 0 < chroma_dim h /\ h / 2 <= chroma_dim h) by (unfold chroma_dim; lia).
  assert (LZ : forall n, 0 <= n -> zlen (zseq n) = n) by (intros n Hn; unfold zlen, zseq; rewrite map_length, seq_length; lia).
  pose proof (plane_read _ _ w h w h _ s1 RY B1 (proj1 SU1) ltac:(lia) ltac:(lia) ltac:(lia) ltac:(lia)) as Y.
  pose proof RY as ([SY _] & WY & HY). pose proof RU as ([SU' _] & WU & HU). pose proof RV as ([SV' _] & WV & HV).
  assert (0 <= h / 2 * (w / 2)) by nia.
  destruct (read_rows_supplied w (zseq h) (ra_y scratch) s1 SU1 SY ltac:(lia)) as (y & s2 & R & SU2);
    [intros q Q; apply zseq_in in Q; lia|rewrite LZ, E1; lia|].
  rewrite R in *. destruct Y as (dy & Y1 & Y2 & Y3 & _ & _ & y' & EY & _ & _).
  assert (B2 : bytes_ok (s_stream s2)) by (rewrite Y1 in B1; apply Forall_app in B1; apply B1).
  assert (L2 : zlen (s_stream s2) = zlen body - h * w) by (rewrite <- E1, Y1, zlen_app; lia).
  pose proof (plane_read _ _ (chroma_dim w) (chroma_dim h) (w / 2) (h / 2) _ s2 RU B2 Y3 ltac:(lia) ltac:(lia) ltac:(lia) ltac:(lia)) as U.
  destruct (read_rows_supplied (w / 2) (zseq (h / 2)) (ra_u scratch) s2 SU2 SU' ltac:(lia)) as (u & s3 & R3 & SU3);
    [intros q Q; apply zseq_in in Q; lia|rewrite LZ; lia|].
  rewrite R3 in *. destruct U as (du & U1 & U2 & U3 & _ & _ & u' & EU & _ & _).
  assert (B3 : bytes_ok (s_stream s3)) by (rewrite U1 in B2; apply Forall_app in B2; apply B2).
  assert (L3 : zlen (s_stream s2) = h / 2 * (w / 2) + zlen (s_stream s3)) by (rewrite U1, zlen_app; lia).
  pose proof (plane_read _ _ (chroma_dim w) (chroma_dim h) (w / 2) (h / 2) _ s3 RV B3 U3 ltac:(lia) ltac:(lia) ltac:(lia) ltac:(lia)) as V.
  destruct (read_rows_supplied (w / 2) (zseq (h / 2)) (ra_v scratch) s3 SU3 SV' ltac:(lia)) as (v & s4 & R4 & SU4);
    [intros q Q; apply zseq_in in Q; lia|rewrite LZ; lia|].
  rewrite R4 in *. destruct V as (dv & V1 & V2 & V3 & _ & _ & v' & EV & _ & _).
  unfold edge_extend. cbn [ra_dw ra_dh ra_y ra_u ra_v]. rewrite DW, DH, EY. cbn [obind]. rewrite EU. cbn [obind]. rewrite EV. cbn [obind].
  eauto.
Qed.

(** ** Writing *)

(** The first [dw] pixels of the first [dh] rows. *)
Definition pixels (p : plane) (dw dh : Z) : list Z := flat_map (fun y => map (fun x => at_px p x y) (zseq dw)) (zseq dh).

Lemma zseq_len n : 0 <= n -> zlen (zseq n) = n.
Proof. intros H. unfold zlen, zseq. rewrite map_length, seq_length. lia. Qed.
Lemma zseq_nth n i d : (i < Z.to_nat n)%nat -> nth i (zseq n) d = Z.of_nat i.
Proof. intros H. unfold zseq. rewrite (nth_indep _ d (Z.of_nat 0)) by (rewrite map_length, seq_length; exact H). rewrite map_nth, seq_nth by exact H. reflexivity. Qed.

Lemma flat_rows_nth (f : Z -> list Z) dw l : (forall y, In y l -> zlen (f y) = dw) -> forall i x, 0 <= x < dw -> (i < length l)%nat ->
  nth (i * Z.to_nat dw + Z.to_nat x) (flat_map f l) 0 = nth (Z.to_nat x) (f (nth i l 0)) 0.
Proof.
  induction l as [|y l IH]; intros F i x X I; [cbn in I; lia|]. cbn [flat_map].
  assert (LY : length (f y) = Z.to_nat dw) by (specialize (F y (or_introl eq_refl)); unfold zlen in F; lia).
  destruct i as [|i].
  - rewrite app_nth1 by lia. reflexivity.
  - rewrite app_nth2 by lia. rewrite LY. replace (Datatypes.S i * Z.to_nat dw + Z.to_nat x - Z.to_nat dw)%nat with (i * Z.to_nat dw + Z.to_nat x)%nat by lia.
    cbn [nth]. apply IH; [intros z Q; apply F; right; exact Q|exact X|cbn in I; lia].
Qed.
Lemma flat_rows_len (f : Z -> list Z) dw l : (forall y, In y l -> zlen (f y) = dw) -> zlen (flat_map f l) = zlen l * dw.
Proof.
  induction l as [|y l IH]; intros F; [reflexivity|]. cbn [flat_map]. rewrite zlen_app, zlen_cons, IH by (intros z Q; apply F; right; exact Q).
  rewrite (F y (or_introl eq_refl)). lia.
Qed.
Lemma pixels_len p dw dh : 0 <= dw -> 0 <= dh -> zlen (pixels p dw dh) = dh * dw.
Proof.
  intros W H. unfold pixels. rewrite (flat_rows_len _ dw); [rewrite zseq_len by exact H; reflexivity|].
  intros y _. unfold zlen. rewrite map_length. apply (zseq_len dw W).
Qed.
Lemma pixels_nth p dw dh x y : 0 <= x < dw -> 0 <= y < dh -> nth (Z.to_nat (y * dw + x)) (pixels p dw dh) 0 = at_px p x y.
Proof.
  intros X Y. unfold pixels. replace (Z.to_nat (y * dw + x)) with (Z.to_nat y * Z.to_nat dw + Z.to_nat x)%nat by nia.
  rewrite (flat_rows_nth _ dw).
  - rewrite zseq_nth by lia. rewrite Z2Nat.id by lia. rewrite (nth_indep _ 0 (at_px p 0 y)) by (rewrite map_length; pose proof (zseq_len dw ltac:(lia)) as L; unfold zlen in L; lia).
    rewrite (map_nth (fun x => at_px p x y) (zseq dw) 0), zseq_nth by lia. rewrite Z2Nat.id by lia. reflexivity.
  - intros z _. unfold zlen. rewrite map_length. apply (zseq_len dw ltac:(lia)).
  - exact X.
  - pose proof (zseq_len dh ltac:(lia)) as L; unfold zlen in L; lia.
Qed.

Lemma row_chunk_spec p dw row : shaped p -> 0 < dw <= pl_w p -> 0 <= row < pl_h p ->
  row_chunk p dw row = Some (map (fun x => at_px p x row) (zseq dw)).
Proof.
  intros (W & H & L) D R. unfold row_chunk. replace (inside p 0 row) with true by (symmetry; apply inside_iff; lia). cbn [andb].
  destruct (Z.leb_spec (row * pl_w p + dw) (zlen (pl_px p))) as [Q|Q]; [|nia]. f_equal. apply (nth_ext _ _ 0 0).
  - rewrite firstn_length, skipn_length, map_length. unfold zseq. rewrite map_length, seq_length. unfold zlen in *. lia.
  - intros i I. rewrite firstn_length, skipn_length in I.
    rewrite (nth_indep (map _ _) 0 (at_px p 0 row)) by (rewrite map_length; unfold zseq; rewrite map_length, seq_length; lia).
    rewrite (map_nth (fun x => at_px p x row) (zseq dw) 0), zseq_nth by lia.
    rewrite nth_firstn_lt, nth_skipn by lia. unfold at_px, pix_index. f_equal. nia.
Qed.

Lemma omap_rows p dw : shaped p -> 0 < dw <= pl_w p -> forall l, (forall y, In y l -> 0 <= y < pl_h p) ->
  omap (row_chunk p dw) l = Some (map (fun y => map (fun x => at_px p x y) (zseq dw)) l).
Proof.
  intros S D. induction l as [|y l IH]; intros I; [reflexivity|]. cbn [omap]. rewrite row_chunk_spec by (try assumption; apply I; left; reflexivity).
  cbn [obind]. rewrite IH by (intros z Q; apply I; right; exact Q). reflexivity.
Qed.

(** The bytes of a picture in a file. *)
Definition picture_bytes (r : raster) : list Z :=
  let cw := chroma_dim (ra_dw r) in
  let ch := chroma_dim (ra_dh r) in
  frame_word ++ 10 :: pixels (ra_y r) (ra_dw r) (ra_dh r) ++ pixels (ra_u r) cw ch ++ pixels (ra_v r) cw ch.

Lemma display_rectangle_spec w h r : 0 < w -> 0 < h -> raster_for w h r ->
  w < 2 ^ 64 -> exists l, display_rectangle r = Some l /\ Forall (fun c => zlen c < 2 ^ 64) l /\ concat l = pixels (ra_y r) w h ++ pixels (ra_u r) (chroma_dim w) (chroma_dim h) ++ pixels (ra_v r) (chroma_dim w) (chroma_dim h).
Proof.
  intros Hw Hh (RO & DW & DH) BW. apply raster_sized in RO. destruct RO as (([RY _] & WY & HY) & ([RU _] & WU & HU) & ([RV _] & WV & HV)).
  destruct (dims_padded w Hw) as [P1 P2]. destruct (dims_padded h Hh) as [P3 P4].
  assert (0 < chroma_dim w /\ 0 < chroma_dim h) by (unfold chroma_dim; lia).
  unfold display_rectangle. rewrite DW, DH.
  rewrite (omap_rows (ra_y r)) by (try assumption; try lia; intros y Q; apply zseq_in in Q; lia). cbn [obind].
  rewrite (omap_rows (ra_u r)) by (try assumption; try lia; intros y Q; apply zseq_in in Q; lia). cbn [obind].
  rewrite (omap_rows (ra_v r)) by (try assumption; try lia; intros y Q; apply zseq_in in Q; lia). cbn [obind].
  eexists. split; [reflexivity|]. split.
  { assert (LR : forall p n l, 0 <= n < 2 ^ 64 -> Forall (fun c => zlen c < 2 ^ 64) (map (fun y => map (fun x => at_px p x y) (zseq n)) l)).
    { intros p n l Hn. apply Forall_forall. intros c Q. apply in_map_iff in Q. destruct Q as (y & <- & _). unfold zlen. rewrite map_length.
      change (zlen (zseq n) < 2 ^ 64). rewrite zseq_len; lia. }
    apply Forall_app. split; [apply LR; lia|]. apply Forall_app. assert (chroma_dim w <= w) by (unfold chroma_dim; lia). split; apply LR; lia. }
  rewrite !concat_app. unfold pixels. rewrite !flat_map_concat_map. reflexivity.
Qed.

Lemma write_chunks_spec : forall l answers, Forall (fun c => zlen c < 2 ^ 64) l ->
  match write_chunks l answers with
  | (Ok _, sent) => sent = concat l
  | (Err e, _) => match e with FSystem | FZero | FWaiting => True | _ => False end
  end.
Proof.
  induction l as [|c l IH]; intros answers F; cbn [write_chunks]; [reflexivity|]. inversion F as [|? ? F1 F2]; subst.
  pose proof (C48_write_chunk (chunk_of c) (hd [] answers) (chunk_ok_of c F1)) as R.
  destruct (write_chunk (chunk_of c) (hd [] answers)) as [[u|e] sent]; destruct R as (_ & R2 & R3 & _).
  - destruct u. specialize (IH (tl answers) F2). destruct (write_chunks l (tl answers)) as [[u|e] more]; [|exact IH].
    rewrite IH. cbn [concat]. f_equal. rewrite (R2 eq_refl). apply cbytes_of.
  - destruct e; auto.
Qed.

(** What reaches the file if writing a picture succeeds; it fails only if the
    kernel refuses or never answers. *)
Theorem C47_write_picture : forall w h r first answers, 0 < w <= 65520 -> 0 < h <= 65520 -> raster_for w h r ->
  match write_picture r first answers with
  | (Ok _, sent) => sent = picture_bytes r
  | (Err (YFd e), _) => match e with FSystem | FZero | FWaiting => True | _ => False end
  | (Err _, _) => False
  end.
Proof.
  intros w h r first answers Hw Hh RF. unfold write_picture.
  pose proof (C48_write_string (frame_word ++ [10]) first) as R.
  destruct (write_string (frame_word ++ [10]) true 0 first) as [[n|e] sent]; destruct R as (_ & R & _).
  2:{ destruct e; auto. discriminate. }
  destruct R as [_ ->]. destruct (display_rectangle_spec w h r ltac:(lia) ltac:(lia) RF ltac:(lia)) as (l & E & FL & C). rewrite E.
  pose proof (write_chunks_spec l answers FL) as W. destruct (write_chunks l answers) as [[u|e] more]; [|exact W].
  rewrite W, C. unfold picture_bytes. destruct RF as (_ & -> & ->). reflexivity.
Qed.

(** It succeeds if the kernel takes the bytes. *)
Lemma write_chunks_willing : forall l answers, Forall (fun c => zlen c < 2 ^ 64) l ->
  Forall2 (fun c a => Forall willing a /\ zlen c <= zlen a) l answers -> exists sent, write_chunks l answers = (Ok tt, sent).
Proof.
  intros l answers F F2. revert F. induction F2 as [|c a l answers [W L] _ IH]; intros F; cbn [write_chunks]; [eauto|].
  inversion F as [|? ? F1 F']; subst. cbn [hd tl]. pose proof (C48_write_chunk (chunk_of c) a (chunk_ok_of c F1)) as R.
  destruct (write_chunk (chunk_of c) a) as [r sent]. destruct R as (_ & _ & _ & R). rewrite (R W L).
  destruct (IH F') as [more ->]. eauto.
Qed.
Theorem C47_write_succeeds : forall w h r, 0 < w <= 65520 -> 0 < h <= 65520 -> raster_for w h r ->
  exists l, display_rectangle r = Some l /\ forall first answers,
    Forall willing first -> 6 <= zlen first -> Forall2 (fun c a => Forall willing a /\ zlen c <= zlen a) l answers ->
    write_picture r first answers = (Ok tt, picture_bytes r).
Proof.
  intros w h r Hw Hh RF. destruct (display_rectangle_spec w h r ltac:(lia) ltac:(lia) RF ltac:(lia)) as (l & E & FL & C).
  exists l. split; [exact E|]. intros first answers W L F2. pose proof (C47_write_picture w h r first answers Hw Hh RF) as R.
  unfold write_picture in *. pose proof (C48_write_string (frame_word ++ [10]) first) as Q.
  destruct (write_string (frame_word ++ [10]) true 0 first) as [o sent]. destruct Q as (_ & _ & Q).
  rewrite (Q W ltac:(discriminate) L) in *. rewrite E in *. destruct (write_chunks_willing l answers FL F2) as [more EM]. rewrite EM in *.
  rewrite R. reflexivity.
Qed.

(** ** The header *)

Definition uint16 (n : Z) : Prop := 0 <= n < 65536.

Lemma decimal_loop_number : forall fuel n acc, 0 <= n < 10 ^ Z.of_nat fuel ->
  fold_left (fun v c => 10 * v + (c - 48)) (decimal_loop fuel n acc) 0 = fold_left (fun v c => 10 * v + (c - 48)) acc n.
Proof.
  induction fuel as [|fuel IH]; intros n acc H; [change (10 ^ Z.of_nat 0) with 1 in H; cbn [decimal_loop]; replace n with 0 by lia; reflexivity|].
  rewrite Nat2Z.inj_succ, Z.pow_succ_r in H by lia. cbn [decimal_loop]. destruct (Z.ltb_spec n 10).
  - cbn [fold_left]. f_equal. lia.
  - rewrite IH by lia. cbn [fold_left]. f_equal. lia.
Qed.
Lemma decimal_loop_digits : forall fuel n acc, Forall (fun c => is_digit c = true) acc -> Forall (fun c => is_digit c = true) (decimal_loop fuel n acc).
Proof.
  induction fuel as [|fuel IH]; intros n acc F; [exact F|]. cbn [decimal_loop].
  assert (F' : Forall (fun c => is_digit c = true) ((48 + n mod 10) :: acc)) by (constructor; [unfold is_digit; lia|exact F]).
  destruct (n <? 10); [exact F'|apply IH, F'].
Qed.
Lemma decimal_loop_nonempty : forall fuel n acc, (acc <> [] \/ fuel <> O) -> decimal_loop fuel n acc <> [].
Proof.
  induction fuel as [|fuel IH]; intros n acc H; cbn [decimal_loop]; [destruct H; congruence|].
  destruct (n <? 10); [discriminate|]. apply IH. left. discriminate.
Qed.
Lemma decimal_spec n : uint16 n -> number (decimal n) = n /\ Forall (fun c => is_digit c = true) (decimal n) /\ decimal n <> [].
Proof.
  intros H. split; [|split].
  - unfold number, decimal. rewrite decimal_loop_number; [reflexivity|]. unfold uint16 in H. change (10 ^ Z.of_nat 20) with 100000000000000000000. lia.
  - apply decimal_loop_digits. constructor.
  - apply decimal_loop_nonempty. right. discriminate.
Qed.

Lemma leading_digits_all l : Forall (fun c => is_digit c = true) l -> leading_digits l = l.
Proof. induction 1 as [|c l H _ IH]; [reflexivity|]. cbn [leading_digits]. rewrite H, IH. reflexivity. Qed.

Lemma stoi_decimal n : uint16 n -> stoi (decimal n) = Ok n.
Proof.
  intros H. destruct (decimal_spec n H) as (N & D & NE). unfold stoi. destruct (decimal n) as [|c l] eqn:E; [congruence|].
  pose proof (Forall_inv D) as D1. unfold is_digit in D1. cbn [skip_spaces]. unfold is_space.
  replace ((c =? 32) || ((9 <=? c) && (c <=? 13))) with false by lia. replace (c =? 45) with false by lia. replace (c =? 43) with false by lia.
  rewrite leading_digits_all by exact D. rewrite N. unfold uint16 in H. destruct (Z.leb_spec (- 2 ^ 31) n), (Z.ltb_spec n (2 ^ 31)); cbn [andb]; (reflexivity || lia).
Qed.

Lemma split_colon_digits a b : Forall (fun c => is_digit c = true) a -> split_colon (a ++ 58 :: b) = Some (a, b).
Proof.
  induction 1 as [|c a H _ IH]; [reflexivity|]. cbn [app split_colon]. unfold is_digit in H. replace (c =? 58) with false by lia.
  rewrite IH. reflexivity.
Qed.
Lemma fraction_decimal a b : uint16 a -> uint16 b -> parse_fraction (decimal a ++ 58 :: decimal b) = Ok (a, b).
Proof.
  intros A B. unfold parse_fraction. rewrite split_colon_digits by apply (decimal_spec a A). rewrite (stoi_decimal a A), (stoi_decimal b B). reflexivity.
Qed.

Definition spaceless (l : list Z) : Prop := Forall (fun c => is_space c = false) l.
Lemma words_loop_word : forall w rest cur, spaceless w -> words_loop (w ++ rest) cur = words_loop rest (rev w ++ cur).
Proof.
  induction w as [|c w IH]; intros rest cur S; [reflexivity|]. inversion S as [|? ? S1 S2]; subst. cbn [app words_loop]. rewrite S1, IH by exact S2.
  cbn [rev]. rewrite <- app_assoc. reflexivity.
Qed.
Lemma words_cons w rest : w <> [] -> spaceless w -> words (w ++ 32 :: rest) = w :: words rest.
Proof.
  intros NE S. unfold words. rewrite words_loop_word by exact S. rewrite app_nil_r. cbn [words_loop]. change (is_space 32) with true.
  cbv iota. rewrite rev_involutive. destruct (rev w) eqn:E; [|reflexivity]. exfalso. apply NE. rewrite <- (rev_involutive w), E. reflexivity.
Qed.
Lemma words_last w : w <> [] -> spaceless w -> words w = [w].
Proof.
  intros NE S. unfold words. rewrite <- (app_nil_r w) at 1. rewrite words_loop_word by exact S. rewrite app_nil_r. cbn [words_loop].
  rewrite rev_involutive. destruct (rev w) eqn:E; [|reflexivity]. exfalso. apply NE. rewrite <- (rev_involutive w), E. reflexivity.
Qed.
Lemma digits_spaceless l : Forall (fun c => is_digit c = true) l -> spaceless l.
Proof. apply Forall_impl. intros c. unfold is_digit, is_space. lia. Qed.
Lemma decimal_spaceless n : uint16 n -> spaceless (decimal n).
Proof. intros H. apply digits_spaceless, (decimal_spec n H). Qed.
Lemma spaceless_app a b : spaceless a -> spaceless b -> spaceless (a ++ b).
Proof. intros A B. apply Forall_app. auto. Qed.

Definition header_ok (h : y4m_header) : Prop :=
  uint16 (ym_width h) /\ uint16 (ym_height h) /\ uint16 (ym_fps_n h) /\ uint16 (ym_fps_d h) /\ uint16 (ym_par_n h) /\ uint16 (ym_par_d h).

Definition is_420 (c : colour_space) : bool := match c with C420jpeg | C420paldv | C420 => true | _ => false end.

Lemma wrap16 n : uint16 n -> wrap 16 n = n.
Proof. unfold uint16, wrap. change (2 ^ 16) with 65536. lia. Qed.

(** The reader understands the header the writer writes: all its fields, except
    that the kind of 4:2:0 is forgotten; other colour spaces are refused. *)
Theorem C47_header : forall h, header_ok h -> 0 < ym_width h -> 0 < ym_height h ->
  parse_header (header_line h) =
    if is_420 (ym_colour h)
    then Ok (mkY4m (ym_width h) (ym_height h) (ym_fps_n h) (ym_fps_d h) (ym_par_n h) (ym_par_d h) (ym_inter h) C420)
    else Err YColour.
Proof.
  intros [w h fn fd pn pd it c] (A & B & C & D & E & F) W H. cbn [ym_width ym_height ym_fps_n ym_fps_d ym_par_n ym_par_d ym_inter ym_colour] in *.
  unfold header_line. cbn [ym_width ym_height ym_fps_n ym_fps_d ym_par_n ym_par_d ym_inter ym_colour].
  unfold parse_header. rewrite words_cons by (try discriminate; repeat constructor).
  change (87 :: decimal w ++ 32 :: 72 :: decimal h ++ ?r) with ((87 :: decimal w) ++ 32 :: (72 :: decimal h) ++ r).
  rewrite words_cons by (first [discriminate | constructor; [reflexivity|apply decimal_spaceless; assumption]]).
  rewrite words_cons by (first [discriminate | constructor; [reflexivity|apply decimal_spaceless; assumption]]).
  replace (70 :: decimal fn ++ 58 :: decimal fd ++ 32 :: 73 :: interlacing_letter it :: 32 :: 65 :: decimal pn ++ 58 :: decimal pd ++ 32 :: colour_text c)
    with ((70 :: decimal fn ++ 58 :: decimal fd) ++ 32 :: [73; interlacing_letter it] ++ 32 :: (65 :: decimal pn ++ 58 :: decimal pd) ++ 32 :: colour_text c)
    by (cbn [app]; rewrite <- !app_assoc; reflexivity).
  rewrite words_cons by (first [discriminate | constructor; [reflexivity|apply spaceless_app; [apply decimal_spaceless; assumption|constructor; [reflexivity|apply decimal_spaceless; assumption]]]]).
  rewrite words_cons by (try discriminate; destruct it; repeat constructor).
  rewrite words_cons by (first [discriminate | constructor; [reflexivity|apply spaceless_app; [apply decimal_spaceless; assumption|constructor; [reflexivity|apply decimal_spaceless; assumption]]]]).
  unfold eq_bytes at 1. destruct (list_eq_dec Z.eq_dec magic magic) as [_|N]; [|congruence]. cbn [negb].
  cbn [header_words]. unfold header_word at 1. change (87 =? 87) with true. cbv iota. rewrite (stoi_decimal w A). cbn [rbind].
  unfold header_word at 1. change (72 =? 87) with false. change (72 =? 72) with true. cbv iota. rewrite (stoi_decimal h B). cbn [rbind].
  unfold header_word at 1. change (70 =? 87) with false. change (70 =? 72) with false. change (70 =? 70) with true. cbv iota.
  rewrite (fraction_decimal fn fd C D). cbn [rbind].
  assert (HI : forall hh, header_word hh [73; interlacing_letter it] =
     Ok (mkY4m (ym_width hh) (ym_height hh) (ym_fps_n hh) (ym_fps_d hh) (ym_par_n hh) (ym_par_d hh) it (ym_colour hh))) by (intros hh; destruct it; reflexivity).
  rewrite HI. cbn [rbind]. unfold header_word at 1. change (65 =? 87) with false. change (65 =? 72) with false. change (65 =? 70) with false. change (65 =? 73) with false.
  change (65 =? 65) with true. cbv iota. rewrite (fraction_decimal pn pd E F). cbn [rbind].
  cbn [ym_width ym_height ym_fps_n ym_fps_d ym_par_n ym_par_d ym_inter ym_colour]. rewrite !wrap16 by assumption.
  destruct c; cbn [is_420]; unfold words; cbn; try reflexivity; replace (w =? 0) with false by lia; replace (h =? 0) with false by lia; reflexivity.
Qed.

Lemma header_line_no_newline h : header_ok h -> ~ In 10 (header_line h).
Proof.
  intros (A & B & C & D & E & F) I. revert I.
  assert (ND : forall n, uint16 n -> Forall (fun c => c <> 10) (decimal n)).
  { intros n U. refine (Forall_impl _ _ (proj1 (proj2 (decimal_spec n U)))). intros c Q ->. discriminate. }
  assert (G : Forall (fun c => c <> 10) (header_line h)).
  { unfold header_line.
    assert (AP : forall a b, Forall (fun c => c <> 10) a -> Forall (fun c => c <> 10) b -> Forall (fun c => c <> 10) (a ++ b)) by (intros; apply Forall_app; auto).
    apply AP; [unfold magic; repeat (constructor; [discriminate|]); constructor|].
    do 2 (constructor; [discriminate|]). apply AP; [apply ND, A|]. do 2 (constructor; [discriminate|]). apply AP; [apply ND, B|].
    do 2 (constructor; [discriminate|]). apply AP; [apply ND, C|]. constructor; [discriminate|]. apply AP; [apply ND, D|].
    do 2 (constructor; [discriminate|]). constructor; [destruct (ym_inter h); discriminate|].
    do 2 (constructor; [discriminate|]). apply AP; [apply ND, E|]. constructor; [discriminate|]. apply AP; [apply ND, F|].
    constructor; [discriminate|]. unfold colour_text. destruct (ym_colour h); repeat (constructor; [discriminate|]); constructor. }
  intros I. exact (proj1 (Forall_forall _ _) G 10 I eq_refl).
Qed.

(** The reader's constructor on a file that starts with the writer's header. *)
Theorem C47_open : forall h s rest, header_ok h -> 0 < ym_width h -> 0 < ym_height h -> is_420 (ym_colour h) = true ->
  supplied s -> s_stream s = header_string h ++ rest ->
  exists s', open_reader s = (Ok (mkY4m (ym_width h) (ym_height h) (ym_fps_n h) (ym_fps_d h) (ym_par_n h) (ym_par_d h) (ym_inter h) C420), s')
    /\ s_stream s' = rest /\ supplied s'.
Proof.
  intros h s rest HO W H C SU ES. unfold header_string in ES. rewrite <- app_assoc in ES.
  destruct (getline_supplied s (header_line h) rest SU ES (header_line_no_newline h HO)) as (s' & E & ER & SU').
  unfold open_reader. rewrite E, (C47_header h HO W H), C. exists s'. auto.
Qed.

(** ** Round trip *)

Definition even (n : Z) : Prop := n mod 2 = 0.

(** The pictures show the same, and outside of the displayed rectangle [r] is
    the nearest displayed pixel. *)
Definition extends (dw dh : Z) (p q : plane) : Prop :=
  same_dims q p /\ forall x y, inside p x y = true -> at_px q x y = at_px p (Z.min x (dw - 1)) (Z.min y (dh - 1)).
Definition shows (p r : raster) : Prop :=
  ra_dw r = ra_dw p /\ ra_dh r = ra_dh p /\ extends (ra_dw p) (ra_dh p) (ra_y p) (ra_y r) /\
  extends (chroma_dim (ra_dw p)) (chroma_dim (ra_dh p)) (ra_u p) (ra_u r) /\
  extends (chroma_dim (ra_dw p)) (chroma_dim (ra_dh p)) (ra_v p) (ra_v r).

Lemma taken_extends w h dw dh p old q : sized w h p -> sized w h q -> 0 < dw <= w -> 0 < dh <= h ->
  taken dw dh dw dh (pixels p dw dh) old q -> extends dw dh p q.
Proof.
  intros (_ & W1 & H1) (_ & W2 & H2) DW DH T. split; [split; congruence|]. intros x y I. apply inside_iff in I.
  rewrite T by (apply inside_iff; lia). cbv zeta. replace ((Z.min x (dw - 1) <? dw) && (Z.min y (dh - 1) <? dh)) with true by lia.
  apply pixels_nth; lia.
Qed.

Lemma raster_bytes w h r : raster_for w h r -> 0 < w -> 0 < h -> bytes_ok (picture_bytes r).
Proof.
  intros (RO & DW & DH) Hw Hh. apply raster_sized in RO. destruct RO as (RY & RU & RV). unfold picture_bytes. rewrite DW, DH.
  destruct (dims_padded w Hw) as [P1 P2]. destruct (dims_padded h Hh) as [P3 P4].
  assert (0 < chroma_dim w /\ 0 < chroma_dim h) by (unfold chroma_dim; lia).
  assert (PB : forall W H p dw dh, sized W H p -> dw <= W -> dh <= H -> bytes_ok (pixels p dw dh)).
  { intros W H0 p dw dh (PO & E1 & E2) L1 L2. apply Forall_forall. intros b I. apply in_flat_map in I. destruct I as (y & Y & I).
    apply in_map_iff in I. destruct I as (x & <- & X). apply zseq_in in X. apply zseq_in in Y. apply at_px_byte; [exact PO|apply inside_iff; lia]. }
  apply Forall_app. split; [unfold frame_word; repeat (constructor; [unfold byte_ok; lia|]); constructor|]. constructor; [unfold byte_ok; lia|].
  apply Forall_app. split; [refine (PB _ _ _ _ _ RY _ _); lia|]. apply Forall_app. split; [refine (PB _ _ _ _ _ RU _ _)|refine (PB _ _ _ _ _ RV _ _)]; lia.
Qed.

Lemma app_same_len {A} (a b c d : list A) : length a = length c -> a ++ b = c ++ d -> a = c /\ b = d.
Proof.
  revert c. induction a as [|x a IH]; intros [|y c] L E; try discriminate; [auto|]. injection E as <- E. injection L as L.
  destruct (IH c L E) as [<- <-]. auto.
Qed.

(** One picture of even dimensions. *)
Theorem C47_picture : forall hd w h p scratch s rest,
  ym_width hd = w -> ym_height hd = h -> 0 < w <= 65520 -> 0 < h <= 65520 -> even w -> even h ->
  raster_for w h p -> raster_for w h scratch -> supplied s -> bytes_ok rest -> s_stream s = picture_bytes p ++ rest ->
  exists r s', get_next_frame hd scratch s = (Ok (Some r), s') /\ s_stream s' = rest /\ supplied s' /\ raster_for w h r /\ shows p r.
Proof.
  intros hd w h p scratch s rest EW EH Hw Hh VW VH RP RS SU BR ES. unfold even in *.
  assert (BS : bytes_ok (s_stream s)) by (rewrite ES; apply Forall_app; split; [apply (raster_bytes w h); [exact RP|lia|lia]|exact BR]).
  pose proof RP as (RO & DW & DH). apply raster_sized in RO. destruct RO as (RY & RU & RV).
  assert (CW : chroma_dim w = w / 2 /\ 0 < w / 2) by (unfold chroma_dim; lia). assert (CH : chroma_dim h = h / 2 /\ 0 < h / 2) by (unfold chroma_dim; lia).
  destruct CW as [CW CW']. destruct CH as [CH CH'].
  assert (ES2 : s_stream s = frame_word ++ 10 :: pixels (ra_y p) w h ++ pixels (ra_u p) (w / 2) (h / 2) ++ pixels (ra_v p) (w / 2) (h / 2) ++ rest).
  { rewrite ES. unfold picture_bytes. rewrite DW, DH, CW, CH. rewrite <- !app_assoc. cbn [app]. rewrite <- !app_assoc. reflexivity. }
  assert (LY := pixels_len (ra_y p) w h ltac:(lia) ltac:(lia)). assert (LU := pixels_len (ra_u p) (w / 2) (h / 2) ltac:(lia) ltac:(lia)).
  assert (LV := pixels_len (ra_v p) (w / 2) (h / 2) ltac:(lia) ltac:(lia)).
  destruct (read_picture_supplied hd scratch s w h _ EW EH Hw Hh RS SU BS ES2) as (r & s' & E & SU').
  { rewrite !zlen_app, LY, LU, LV. pose proof (zlen_nonneg rest). lia. }
  pose proof (C47_read_picture hd scratch s w h EW EH Hw Hh RS BS (proj1 SU)) as R. rewrite E in R.
  destruct R as (y & u & v & A & _ & L1 & L2 & L3 & RF & T1 & T2 & T3).
  rewrite ES2 in A. apply app_inv_head in A. injection A as A.
  apply app_same_len in A; [|unfold zlen in *; lia]. destruct A as [<- A1].
  apply app_same_len in A1; [|unfold zlen in *; lia]. destruct A1 as [<- A2].
  apply app_same_len in A2; [|unfold zlen in *; lia]. destruct A2 as [<- A3].
  exists r, s'. split; [exact E|]. split; [symmetry; exact A3|]. split; [exact SU'|]. split; [exact RF|].
  destruct RF as (RO & DW' & DH'). apply raster_sized in RO. destruct RO as (RY' & RU' & RV').
  destruct (dims_padded w ltac:(lia)) as [P1 P2]. destruct (dims_padded h ltac:(lia)) as [P3 P4]. rewrite CW in *. rewrite CH in *.
  unfold shows. rewrite DW, DH, CW, CH. split; [exact DW'|]. split; [exact DH'|].
  split; [|split]; (eapply taken_extends; [eassumption|eassumption|lia|lia|eassumption]).
Qed.

(** A whole file of even dimensions, read to its end. *)
Theorem C47_file : forall hd w h pictures scratches s,
  ym_width hd = w -> ym_height hd = h -> 0 < w <= 65520 -> 0 < h <= 65520 -> even w -> even h ->
  Forall (raster_for w h) pictures -> Forall (raster_for w h) scratches -> length scratches = Datatypes.S (length pictures) ->
  supplied s -> s_stream s = flat_map picture_bytes pictures ->
  exists rs s', read_all hd scratches s = (Ok rs, s') /\ Forall2 shows pictures rs /\ s_eof s' = true.
Proof.
  intros hd w h. induction pictures as [|p pictures IH]; intros scratches s EW EH Hw Hh VW VH FP FS L SU ES.
  - destruct scratches as [|scratch [|]]; try discriminate. cbn [read_all]. unfold get_next_frame. rewrite EW, EH.
    replace (65520 <? w) with false by lia. replace (65520 <? h) with false by lia. cbn [orb].
    destruct (getline_end s SU ES) as (s' & -> & E). rewrite E. exists [], s'. auto.
  - destruct scratches as [|scratch scratches]; [discriminate|]. injection L as L. inversion FP as [|? ? P1 P2]; subst. inversion FS as [|? ? S1 S2]; subst.
    cbn [flat_map] in ES.
    assert (BR : bytes_ok (flat_map picture_bytes pictures)).
    { clear -P2 Hw Hh. induction P2 as [|q l Q _ IH]; [constructor|]. cbn [flat_map]. apply Forall_app. split; [|exact IH].
      apply (raster_bytes _ _ _ Q); lia. }
    destruct (C47_picture hd _ _ p scratch s _ eq_refl eq_refl Hw Hh VW VH P1 S1 SU BR ES) as (r & s1 & E & ES1 & SU1 & _ & SH).
    cbn [read_all]. rewrite E. destruct (IH scratches s1 eq_refl eq_refl Hw Hh VW VH P2 S2 L SU1 ES1) as (rs & s' & -> & F & EE).
    exists (r :: rs), s'. auto.
Qed.

(** ** Refutation: odd dimensions. The reader takes [(w / 2) * (h / 2)] bytes
    per chroma plane, the writer writes [((w + 1) / 2) * ((h + 1) / 2)]. *)
Lemma picture_bytes_len w h p : 0 < w -> 0 < h -> raster_for w h p -> zlen (picture_bytes p) = 6 + h * w + 2 * (chroma_dim h * chroma_dim w).
Proof.
  intros Hw Hh (_ & DW & DH). unfold picture_bytes. rewrite DW, DH. assert (0 < chroma_dim w /\ 0 < chroma_dim h) by (unfold chroma_dim; lia).
  rewrite zlen_app, zlen_cons, !zlen_app, !pixels_len by lia. change (zlen frame_word) with 5. lia.
Qed.
Theorem C47_odd_refuted : forall hd w h p scratch s rest r s',
  ym_width hd = w -> ym_height hd = h -> 0 < w <= 65520 -> 0 < h <= 65520 -> ~ even w \/ ~ even h ->
  raster_for w h p -> raster_for w h scratch -> supplied s -> bytes_ok rest -> s_stream s = picture_bytes p ++ rest ->
  get_next_frame hd scratch s = (Ok (Some r), s') -> s_stream s' <> rest.
Proof.
  intros hd w h p scratch s rest r s' EW EH Hw Hh OD RP RS SU BR ES E C. unfold even in OD.
  assert (BS : bytes_ok (s_stream s)) by (rewrite ES; apply Forall_app; split; [apply (raster_bytes w h); [exact RP|lia|lia]|exact BR]).
  pose proof (C47_read_picture hd scratch s w h EW EH Hw Hh RS BS (proj1 SU)) as R. rewrite E in R.
  destruct R as (y & u & v & A & _ & L1 & L2 & L3 & _). assert (L := picture_bytes_len w h p ltac:(lia) ltac:(lia) RP).
  assert (Q : zlen (s_stream s) = zlen (s_stream s)) by reflexivity. rewrite ES in Q at 1. rewrite A in Q.
  rewrite zlen_app, zlen_app, zlen_cons, !zlen_app, L, L1, L2, L3, C in Q. change (zlen frame_word) with 5 in Q.
  assert (chroma_dim w * chroma_dim h = (w / 2) * (h / 2)) by (unfold chroma_dim in *; lia). unfold chroma_dim in *. nia.
Qed.

(** With odd dimensions and nothing else in the file, the second picture is not
    found: its line is preceded by the chroma bytes that were left. *)
Example C47_odd_example :
  let hd := mkY4m 3 1 24 1 1 1 Progressive C420 in
  let s := mkSource (frame_word ++ [10; 1; 2; 3; 4; 5; 6; 7] ++ frame_word ++ [10; 1; 2; 3; 4; 5; 6; 7]) (repeat (Upto 1) 40) false in
  let '(o, s1) := get_next_frame hd (blank_raster 3 1) s in
  (match o with Ok (Some _) => True | _ => False end) /\ fst (get_next_frame hd (blank_raster 3 1) s1) = Err YFormat.
Proof. vm_compute. auto. Qed.

(** A file with two 4 x 2 pictures, delivered byte by byte. *)
Definition y4m_picture (k : Z) : raster :=
  mkRaster 4 2 (shade 16 16 k) (shade 8 8 (k + 50)) (shade 8 8 (k + 90)).
Lemma y4m_picture_for k : raster_for 4 2 (y4m_picture k).
Proof. split; [|split; reflexivity]. apply raster_sized. split; [|split]; apply shade_sized; reflexivity. Qed.
Definition y4m_file : list Z := header_string (header_for (y4m_picture 0)) ++ flat_map picture_bytes [y4m_picture 1; y4m_picture 2].
Example C47_example :
  let s := mkSource y4m_file (repeat (Upto 1) 200) false in
  supplied s /\ even 4 /\ even 2 /\ header_ok (header_for (y4m_picture 0)) /\
  let '(o, s1) := open_reader s in
  (match o with
   | Ok hd => match read_all hd [y4m_picture 3; y4m_picture 4; y4m_picture 5] s1 with
              | (Ok rs, s2) => map (fun r => pixels (ra_y r) 5 3) rs = [[1; 8; 15; 22; 22; 113; 120; 127; 134; 134; 113; 120; 127; 134; 134];
                                                                       [2; 9; 16; 23; 23; 114; 121; 128; 135; 135; 114; 121; 128; 135; 135]]
              | _ => False
              end
   | _ => False
   end).
Proof.
  split; [split; [reflexivity|split; [apply Forall_forall; intros a I; apply repeat_spec in I; subst; discriminate|vm_compute; reflexivity]]|].
  split; [reflexivity|]. split; [reflexivity|]. split; [unfold header_ok, uint16; cbn; lia|]. vm_compute. reflexivity.
Qed.

(** A header whose width is above 65520 is accepted, but no picture can be
    made for it: TwoDStorage's assertion fails. Numbers that do not fit 16 bits
    are taken modulo 65536, negative ones too. *)
Theorem C47_header_limits_refuted :
  (forall hd scratch s, 65520 < ym_width hd -> get_next_frame hd scratch s = (Err YAbort, s)) /\
  parse_header (magic ++ [32; 87; 45; 52; 32; 72; 54; 53; 53; 51; 56]) = Ok (mkY4m 65532 2 0 0 0 0 Progressive C420).
Proof.
  split; [|vm_compute; reflexivity]. intros hd scratch s H. unfold get_next_frame. replace (65520 <? ym_width hd) with true by lia. reflexivity.
Qed.

Print Assumptions C47_read_picture.
Print Assumptions C47_write_picture.
Print Assumptions C47_write_succeeds.
Print Assumptions C47_header.
Print Assumptions C47_open.
Print Assumptions C47_picture.
Print Assumptions C47_file.
Print Assumptions C47_odd_refuted.
Print Assumptions C47_header_limits_refuted.
