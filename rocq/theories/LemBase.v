(** Basic lemmas about lists, slices and little-endian integers. *)
From Coq Require Import ZArith List Lia Bool.
From Coq Require Import ZifyBool ZifyNat.
From Verif Require Import Base.
Import ListNotations.
Open Scope Z_scope.
Ltac Zify.zify_post_hook ::= Z.div_mod_to_equations.

Lemma zlen_nonneg {A} (l : list A) : 0 <= zlen l.
Proof. unfold zlen; lia. Qed.
Lemma zlen_nil {A} : zlen (@nil A) = 0.
Proof. reflexivity. Qed.
Lemma zlen_cons {A} (a : A) l : zlen (a :: l) = 1 + zlen l.
Proof. unfold zlen; cbn [length]; lia. Qed.
Lemma zlen_app {A} (l1 l2 : list A) : zlen (l1 ++ l2) = zlen l1 + zlen l2.
Proof. unfold zlen; rewrite app_length; lia. Qed.
Lemma zlen_repeat {A} (a : A) n : zlen (repeat a n) = Z.of_nat n.
Proof. unfold zlen; rewrite repeat_length; lia. Qed.
Lemma zlen_map {A B} (f : A -> B) l : zlen (map f l) = zlen l.
Proof. unfold zlen; now rewrite map_length. Qed.
Lemma zlen_0 {A} (l : list A) : zlen l = 0 -> l = [].
Proof. destruct l; [reflexivity|rewrite zlen_cons; pose proof (zlen_nonneg l); lia]. Qed.
#[global] Hint Rewrite @zlen_nil @zlen_cons @zlen_app @zlen_repeat @zlen_map : zlen.

(** *** slices *)
Lemma slice_ok {A} (l : list A) i j :
  0 <= i <= j -> j <= zlen l ->
  slice l i j = Ok (firstn (Z.to_nat (j - i)) (skipn (Z.to_nat i) l)).
Proof.
  intros. unfold slice.
  replace ((0 <=? i) && (i <=? j) && (j <=? zlen l)) with true by lia. reflexivity.
Qed.
Lemma slice_inv {A} (l : list A) i j s :
  slice l i j = Ok s ->
  0 <= i <= j /\ j <= zlen l /\ s = firstn (Z.to_nat (j - i)) (skipn (Z.to_nat i) l)
  /\ zlen s = j - i.
Proof.
  unfold slice. destruct (_ && _) eqn:E; [|discriminate]. intros [= <-].
  repeat split; try lia.
  unfold zlen in *. rewrite firstn_length, skipn_length. lia.
Qed.
Lemma slice_not_throw {A} (l : list A) i j : slice l i j <> Throw.
Proof. unfold slice; destruct (_ && _); discriminate. Qed.
Lemma slice_app3 {A} (l1 l2 l3 : list A) i j :
  i = zlen l1 -> j = zlen l1 + zlen l2 -> slice (l1 ++ l2 ++ l3) i j = Ok l2.
Proof.
  intros -> ->. pose proof (zlen_nonneg l1). pose proof (zlen_nonneg l2).
  pose proof (zlen_nonneg l3).
  rewrite slice_ok by (autorewrite with zlen; lia).
  replace (Z.to_nat (zlen l1)) with (length l1) by (unfold zlen; lia).
  rewrite skipn_app, skipn_all, Nat.sub_diag. cbn [skipn app].
  replace (Z.to_nat (zlen l1 + zlen l2 - zlen l1)) with (length l2) by (unfold zlen; lia).
  rewrite firstn_app, Nat.sub_diag, firstn_all. cbn [firstn]. now rewrite app_nil_r.
Qed.
Lemma slice_full {A} (l : list A) : slice l 0 (zlen l) = Ok l.
Proof.
  pose proof (slice_app3 [] l [] 0 (zlen l) eq_refl eq_refl) as E.
  cbn [app] in E. now rewrite app_nil_r in E.
Qed.
Lemma slice_app_tail {A} (l1 l2 : list A) i j :
  i = zlen l1 -> j = zlen l1 + zlen l2 -> slice (l1 ++ l2) i j = Ok l2.
Proof.
  intros Hi Hj. pose proof (slice_app3 l1 l2 [] i j Hi Hj) as E.
  now rewrite app_nil_r in E.
Qed.
Lemma firstn_add {A} n m (l : list A) : firstn (n + m) l = firstn n l ++ firstn m (skipn n l).
Proof.
  revert l; induction n; intros [|a l]; cbn; auto.
  - now rewrite firstn_nil.
  - now rewrite IHn.
Qed.
Lemma skipn_add {A} n m (l : list A) : skipn n (skipn m l) = skipn (m + n) l.
Proof.
  revert l; induction m; intros [|a l]; cbn; auto. now rewrite skipn_nil.
Qed.
(** Splitting: two adjacent slices. *)
Lemma slice_concat {A} (l : list A) i j k s1 s2 :
  slice l i j = Ok s1 -> slice l j k = Ok s2 -> slice l i k = Ok (s1 ++ s2).
Proof.
  intros H1 H2. apply slice_inv in H1, H2. destruct H1 as (? & ? & -> & ?).
  destruct H2 as (? & ? & -> & ?).
  rewrite slice_ok by lia. f_equal.
  replace (Z.to_nat (k - i)) with (Z.to_nat (j - i) + Z.to_nat (k - j))%nat by lia.
  rewrite firstn_add. f_equal. f_equal. rewrite skipn_add. f_equal. lia.
Qed.
Lemma In_firstn {A} (x : A) n l : In x (firstn n l) -> In x l.
Proof. intros H. rewrite <- (firstn_skipn n l). apply in_or_app; now left. Qed.
Lemma In_skipn {A} (x : A) n l : In x (skipn n l) -> In x l.
Proof. intros H. rewrite <- (firstn_skipn n l). apply in_or_app; now right. Qed.
Lemma slice_incl {A} (l : list A) i j s x : slice l i j = Ok s -> In x s -> In x l.
Proof.
  intros Hs Hx. apply slice_inv in Hs. destruct Hs as (_ & _ & -> & _).
  eapply In_skipn, In_firstn, Hx.
Qed.
Lemma slice_bytes_ok l i j s : bytes_ok l -> slice l i j = Ok s -> bytes_ok s.
Proof.
  unfold bytes_ok. rewrite !Forall_forall. intros Hl Hs x Hx.
  apply Hl. eapply slice_incl; eauto.
Qed.

(** *** upd *)
Lemma upd_length {A} (l : list A) n x : length (upd l n x) = length l.
Proof. revert n; induction l; intros [|n]; cbn; auto. Qed.
Lemma zlen_upd {A} (l : list A) n x : zlen (upd l n x) = zlen l.
Proof. unfold zlen; now rewrite upd_length. Qed.
Lemma nth_upd_eq {A} (l : list A) n x d : (n < length l)%nat -> nth n (upd l n x) d = x.
Proof. revert n; induction l; intros [|n]; cbn; intros; try lia; auto. apply IHl; lia. Qed.
Lemma nth_upd_neq {A} (l : list A) n m x d : n <> m -> nth m (upd l n x) d = nth m l d.
Proof.
  revert n m; induction l; intros [|n] [|m]; cbn; intros; try easy; auto.
Qed.
Lemma nth_upd {A} (l : list A) n m x d :
  nth m (upd l n x) d = if (Nat.eqb n m && Nat.ltb n (length l))%bool then x else nth m l d.
Proof.
  destruct (Nat.eqb_spec n m) as [->|]; cbn [andb]; [|now apply nth_upd_neq].
  destruct (Nat.ltb_spec m (length l)); [now apply nth_upd_eq|].
  rewrite !nth_overflow; auto; rewrite ?upd_length; lia.
Qed.
Lemma Forall_upd {A} (P : A -> Prop) l n x : Forall P l -> P x -> Forall P (upd l n x).
Proof.
  intros Hl Hx. revert n. induction Hl; intros [|n]; cbn; auto.
Qed.
Lemma upd_app_r {A} (l1 l2 : list A) n x :
  upd (l1 ++ l2) (length l1 + n) x = l1 ++ upd l2 n x.
Proof. induction l1; cbn; congruence. Qed.
Lemma upd_app_l {A} (l1 l2 : list A) n x : (n < length l1)%nat ->
  upd (l1 ++ l2) n x = upd l1 n x ++ l2.
Proof. revert n; induction l1; intros [|n]; cbn; intros; try lia; auto. f_equal. apply IHl1. lia. Qed.
Lemma upd_nth_same {A} (l : list A) n d : upd l n (nth n l d) = l.
Proof. revert n; induction l; intros [|n]; cbn; congruence. Qed.

(** *** little endian *)
Lemma le_bytes_length n v : length (le_bytes n v) = n.
Proof. revert v; induction n; cbn; intros; auto. Qed.
Lemma zlen_le_bytes n v : zlen (le_bytes n v) = Z.of_nat n.
Proof. unfold zlen; now rewrite le_bytes_length. Qed.
#[global] Hint Rewrite @zlen_le_bytes @zlen_upd : zlen.
Lemma le_bytes_ok n v : bytes_ok (le_bytes n v).
Proof.
  revert v; induction n; cbn [le_bytes]; intros; constructor; auto.
  - unfold byte_ok. lia.
  - apply IHn.
Qed.
Lemma le_val_bytes n v : le_val (le_bytes n v) = v mod 256 ^ Z.of_nat n.
Proof.
  revert v; induction n; intros v; cbn [le_bytes le_val].
  - cbn. now rewrite Z.mod_1_r.
  - rewrite IHn. rewrite Nat2Z.inj_succ, Z.pow_succ_r by lia.
    rewrite Z.rem_mul_r by lia. reflexivity.
Qed.
Lemma le_val_bound l : bytes_ok l -> 0 <= le_val l < 256 ^ zlen l.
Proof.
  induction 1; cbn [le_val].
  - cbn; lia.
  - rewrite zlen_cons. unfold byte_ok in *. pose proof (zlen_nonneg l).
    rewrite Z.pow_add_r by lia. change (256 ^ 1) with 256. nia.
Qed.
Lemma le_bytes_val l : bytes_ok l -> le_bytes (length l) (le_val l) = l.
Proof.
  induction 1; cbn [length le_val le_bytes]; auto.
  unfold byte_ok in *.
  replace ((x + 256 * le_val l) mod 256) with x by lia.
  replace ((x + 256 * le_val l) / 256) with (le_val l) by lia.
  now rewrite IHForall.
Qed.
Lemma le_bytes_mod n v : le_bytes n (v mod 256 ^ Z.of_nat n) = le_bytes n v.
Proof.
  rewrite <- le_val_bytes. rewrite <- (le_bytes_length n v) at 1.
  rewrite le_bytes_val; auto using le_bytes_ok.
Qed.
Lemma le_bytes_inj n v w :
  0 <= v < 256 ^ Z.of_nat n -> 0 <= w < 256 ^ Z.of_nat n ->
  le_bytes n v = le_bytes n w -> v = w.
Proof.
  intros Hv Hw E. apply (f_equal le_val) in E. rewrite !le_val_bytes in E.
  rewrite !Z.mod_small in E; auto.
Qed.

(** *** outcome *)
Lemma bind_ok {A B} (m : outcome A) (f : A -> outcome B) b :
  bind m f = Ok b -> exists a, m = Ok a /\ f a = Ok b.
Proof. destruct m; cbn; try discriminate; eauto. Qed.
Lemma mapM_ok {A B} (f : A -> outcome B) l bs :
  mapM f l = Ok bs <-> Forall2 (fun a b => f a = Ok b) l bs.
Proof.
  split.
  - revert bs; induction l; cbn; intros bs Hb.
    + injection Hb as <-; constructor.
    + apply bind_ok in Hb as (b & Hb & Hr). apply bind_ok in Hr as (r & Hr & [= <-]).
      constructor; auto.
  - induction 1; cbn; auto. rewrite H. cbn. rewrite IHForall2. reflexivity.
Qed.
Lemma mapM_map {A B} (f : A -> outcome B) (g : A -> B) l :
  (forall a, In a l -> f a = Ok (g a)) -> mapM f l = Ok (map g l).
Proof.
  induction l; cbn; intros E; auto. rewrite E by auto. cbn. rewrite IHl; auto.
Qed.

Lemma Forall2_len {A B} (P : A -> B -> Prop) l m : Forall2 P l m -> length l = length m.
Proof. induction 1; cbn; auto. Qed.
