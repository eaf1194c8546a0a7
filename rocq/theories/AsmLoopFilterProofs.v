(** Running the vector code of the loop filter: registers are functions from
    lanes to values, one for all lanes. *)
From Verif Require Import Base MVModel RasterModel VarianceModel SimdModel SimdProofs AsmLoopFilterModel.

(** * Registers as functions *)

Definition B (f : nat -> Z) : vec := Vb (map f (seq 0 16)).
Definition W (f : nat -> Z) : vec := Vw (map f (seq 0 8)).
(** Byte i of the words of W. *)
Definition byte_of (w : nat -> Z) (i : nat) : Z := if Nat.even i then lo8 (w (Nat.div2 i)) else hi8 (w (Nat.div2 i)).
(** Lane i of two registers of words. *)
Definition join (f g : nat -> Z) (i : nat) : Z := if Nat.ltb i 8 then f i else g (i - 8)%nat.

Lemma tb_B : forall c, tb c = B (fun _ => c). Proof. reflexivity. Qed.
Lemma tw_W : forall c, tw c = W (fun _ => c). Proof. reflexivity. Qed.
Lemma zeros_B : zeros 16 = B (fun _ => 0). Proof. reflexivity. Qed.
Lemma op8_B : forall g f h, op8 g (B f) (B h) = B (fun i => g (f i) (h i)). Proof. reflexivity. Qed.
Lemma op8_BW : forall g f h, op8 g (B f) (W h) = B (fun i => g (f i) (byte_of h i)). Proof. reflexivity. Qed.
Lemma bits_B : forall g f h, bits g (B f) (B h) = B (fun i => g (f i) (h i)). Proof. reflexivity. Qed.
Lemma bits_WB : forall g f h, bits g (W f) (B h) = B (fun i => g (byte_of f i) (h i)). Proof. reflexivity. Qed.
Lemma op16_W : forall g f h, op16 g (W f) (W h) = W (fun i => g (f i) (h i)). Proof. reflexivity. Qed.
Lemma un16_W : forall g f, un16 g (W f) = W (fun i => g (f i)). Proof. reflexivity. Qed.
Lemma un16_B : forall g f, un16 g (B f) = W (fun k => g (word (f (2 * k)%nat) (f (2 * k + 1)%nat))). Proof. reflexivity. Qed.
Lemma un16_lo : forall g f h, un16 g (punpckl 1 (B f) (B h)) = W (fun k => g (word (f k) (h k))). Proof. reflexivity. Qed.
Lemma un16_hi : forall g f h, un16 g (punpckh 1 (B f) (B h)) = W (fun k => g (word (f (8 + k)%nat) (h (8 + k)%nat))). Proof. reflexivity. Qed.
Lemma un16_hiW : forall g f h, un16 g (punpckh 1 (W f) (B h)) = W (fun k => g (word (byte_of f (8 + k)%nat) (h (8 + k)%nat))). Proof. reflexivity. Qed.
Lemma op16_lo : forall g f h w, op16 g (punpckl 1 (B f) (B h)) (W w) = W (fun k => g (word (f k) (h k)) (w k)). Proof. reflexivity. Qed.
Lemma op16_hi : forall g f h w, op16 g (punpckh 1 (B f) (B h)) (W w) = W (fun k => g (word (f (8 + k)%nat) (h (8 + k)%nat)) (w k)). Proof. reflexivity. Qed.
Lemma pack_W : forall f g, packsswb (W f) (W g) = B (fun i => lo8 (sat8 (join f g i))). Proof. reflexivity. Qed.
Lemma mov_id : forall v, mov v = v. Proof. reflexivity. Qed.
Lemma mem_B : forall (m : nat -> Z -> Z) s o, Vb (map (fun i => m s (o + Z.of_nat i)) (seq 0 16) ++ repeat 0 (16 - 16)) = B (fun i => m s (o + Z.of_nat i)). Proof. reflexivity. Qed.

(** Memory. *)
Definition put (m : nat -> Z -> Z) (s : nat) (o : Z) (f : nat -> Z) : nat -> Z -> Z := poke m s o (map f (seq 0 16)).
Lemma put_B : forall m s o f, poke m s o (firstn 16 (bytes (B f))) = put m s o f. Proof. reflexivity. Qed.
Lemma put_in : forall m s o f a i, (i < 16)%nat -> a = o + Z.of_nat i -> put m s o f s a = f i.
Proof.
  intros m s o f a i I ->. unfold put. rewrite poke_in by (unfold zlen; rewrite map_length, seq_length; lia).
  replace (Z.to_nat (o + Z.of_nat i - o)) with i by lia.
  rewrite (nth_indep _ 0 (f 0%nat)) by (rewrite map_length, seq_length; exact I).
  rewrite map_nth, seq_nth by exact I. reflexivity.
Qed.
Lemma put_out : forall m s o f s' a, s' <> s \/ a < o \/ o + 16 <= a -> put m s o f s' a = m s' a.
Proof. intros. unfold put. apply poke_out. unfold zlen. rewrite map_length, seq_length. exact H. Qed.

(** * Steps *)

Ltac vec_rules :=
  unfold psubusb, paddusb, paddb, pmaxub, pcmpeqb, psubsb, paddsb, por, pand, pxor, pandn, psrlw, psraw, paddw, paddsw, pmulhw;
  rewrite ?mov_id, ?tb_B, ?tw_W, ?zeros_B, ?op8_B, ?op8_BW, ?bits_B, ?bits_WB, ?op16_lo, ?op16_hi, ?op16_W, ?un16_lo, ?un16_hi, ?un16_hiW, ?un16_W, ?un16_B, ?pack_W;
  cbv beta.
(** Name a new register. *)
Ltac name_it :=
  repeat match goal with
  | |- context [B ?f] =>
      lazymatch f with
      | fun _ => _ => let x := fresh "x" in let E := fresh "E" in
          set (x := f); assert (E : forall i, x i = f i) by reflexivity; cbv beta in E; clearbody x
      end
  | |- context [W ?f] =>
      lazymatch f with
      | fun _ => _ => let x := fresh "w" in let E := fresh "E" in
          set (x := f); assert (E : forall i, x i = f i) by reflexivity; cbv beta in E; clearbody x
      end
  end.
Ltac lc_eval t :=
  eval cbv [exec source eval reg set_v set_g set_m vreg gp vr mem nth set_nth obind val_add val_mul as_int
            ld sto cp zero t0_ t1_ p1_ p2_ q1_ q2_ rax rcx rdx rbx rsp rsi rdi] in t.
Ltac lstep side :=
  match goal with
  | |- context [run ?L ?a (?i :: ?l) ?s] =>
      rewrite (run_cons L a i l s);
      let r := fresh "rest" in set (r := run L a l);
      let x := lc_eval (exec L a i s) in change (exec L a i s) with x;
      repeat first [rewrite load_ok by side | rewrite store_ok by side];
      cbv beta iota;
      rewrite ?mem_B, ?put_B; vec_rules; name_it;
      match goal with |- context [obind (Some ?s') r] => change (obind (Some s') r) with (r s') end; subst r
  end.
