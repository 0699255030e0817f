(** Soundness of the symbolic words of SymWord.v. *)
From Coq Require Import ZArith List Bool Lia ZifyBool Permutation.
From Verif Require Import Base ModelX86 SpecSha.
From Verif Require Import SymWord.
Import ListNotations.
Open Scope Z_scope.
Ltac Zify.zify_post_hook ::= Z.div_mod_to_equations.

(** ** Tries *)
Lemma tget_leaf {A} p : tget p (@TLeaf A) = None.
Proof. destruct p; reflexivity. Qed.
Lemma tget_set_same {A} (x : A) : forall p t, tget p (tset p x t) = Some x.
Proof. induction p; destruct t; cbn; auto. Qed.
Lemma tget_set_other {A} (x : A) : forall p q t, p <> q -> tget q (tset p x t) = tget q t.
Proof.
  induction p; intros q t N; destruct t; destruct q; cbn; try reflexivity; try congruence;
    try (rewrite IHp by congruence); auto using tget_leaf.
Qed.
Lemma tall_get {A} (f : positive -> A -> bool) : forall t k p x,
  tall f k t = true -> tget p t = Some x -> f (k p) x = true.
Proof.
  induction t as [|l IHl o r IHr]; intros k p x H G; [destruct p; discriminate|].
  cbn [tall] in H. apply andb_prop in H as [H Hr]. apply andb_prop in H as [H Hl].
  destruct p; cbn [tget] in G.
  - exact (IHr _ _ _ Hr G).
  - exact (IHl _ _ _ Hl G).
  - subst o. exact H.
Qed.

(** ** Meaning *)
Section Env.
Variable env : positive -> Z.
Definition fbit (f : factor) (i : Z) : bool := Z.testbit (env (fst f)) ((i + snd f) mod 32).
Definition mbit (m : mono) (i : Z) : bool := forallb (fun f => fbit f i) m.
Fixpoint pbit (p : poly) (i : Z) : bool :=
  match p with
  | [] => false
  | (m, k) :: r => xorb (Z.testbit k i && mbit m i) (pbit r i)
  end.
Fixpoint lsum (l : list (positive * Z)) : Z :=
  match l with [] => 0 | (a, k) :: r => k * env a + lsum r end.
Definition wrel (w : sword) (v : Z) : Prop :=
  match w with
  | SX => True
  | SLin c l => v = (c + lsum l) mod 2 ^ 32
  | SPoly p => 0 <= v < 2 ^ 32 /\ forall i, 0 <= i < 32 -> Z.testbit v i = pbit p i
  end.

(** *** Polynomials *)
Lemma fcmp_eq a b : fcmp a b = Eq -> a = b.
Proof.
  destruct a as [a r], b as [b s]. unfold fcmp. cbn [fst snd].
  destruct (Pos.compare a b) eqn:E; try discriminate. intros F.
  apply Pos.compare_eq in E. apply Z.compare_eq in F. congruence.
Qed.
Lemma mcmp_eq : forall a b, mcmp a b = Eq -> a = b.
Proof.
  induction a as [|x a IH]; intros [|y b] H; try discriminate; auto.
  cbn in H. destruct (fcmp x y) eqn:E; try discriminate.
  apply fcmp_eq in E. rewrite (IH _ H). congruence.
Qed.
Lemma mbit_mmul i : forall x y, mbit (mmul x y) i = mbit x i && mbit y i.
Proof.
  induction x as [|a x IHx].
  - intros [|b y]; reflexivity.
  - induction y as [|b y IHy].
    + cbn. rewrite andb_true_r. reflexivity.
    + cbn [mmul]. destruct (fcmp a b) eqn:E.
      * apply fcmp_eq in E. subst b. unfold mbit in *. cbn [forallb]. rewrite IHx.
        destruct (fbit a i); cbn; auto.
      * unfold mbit in *. cbn [forallb]. rewrite IHx. cbn [forallb]. rewrite andb_assoc. reflexivity.
      * change (mbit (b :: mmul (a :: x) y) i = mbit (a :: x) i && mbit (b :: y) i).
        unfold mbit in *. cbn [forallb]. rewrite IHy. cbn [forallb].
        destruct (fbit a i), (fbit b i), (forallb (fun f => fbit f i) x); cbn; auto.
Qed.
Lemma pbit_pcons m k p i : pbit (pcons m k p) i = xorb (Z.testbit k i && mbit m i) (pbit p i).
Proof. destruct k; cbn [pcons pbit]; auto. rewrite Z.testbit_0_l. destruct (pbit p i); reflexivity. Qed.
Lemma pbit_pxor i : forall x y, pbit (pxor x y) i = xorb (pbit x i) (pbit y i).
Proof.
  induction x as [|[m k] x IHx].
  - intros [|[m k] y]; cbn; auto; destruct (xorb _ _); reflexivity.
  - induction y as [|[m' k'] y IHy].
    + cbn. rewrite xorb_false_r. reflexivity.
    + cbn [pxor]. destruct (mcmp m m') eqn:E.
      * apply mcmp_eq in E. subst m'. rewrite pbit_pcons, Z.lxor_spec. cbn [pbit]. rewrite IHx.
        destruct (Z.testbit k i), (Z.testbit k' i), (mbit m i), (pbit x i), (pbit y i); reflexivity.
      * cbn [pbit]. rewrite IHx. cbn [pbit]. rewrite xorb_assoc. reflexivity.
      * change (pbit ((m', k') :: pxor ((m, k) :: x) y) i
                = xorb (pbit ((m, k) :: x) i) (pbit ((m', k') :: y) i)).
        cbn [pbit]. rewrite IHy. cbn [pbit].
        destruct (Z.testbit k i && mbit m i), (Z.testbit k' i && mbit m' i), (pbit x i), (pbit y i); reflexivity.
Qed.
Lemma pbit_tmul i t : forall y, pbit (tmul t y) i = (Z.testbit (snd t) i && mbit (fst t) i) && pbit y i.
Proof.
  induction y as [|[m k] y IH]; unfold tmul in *; cbn [fold_right pbit fst snd].
  - rewrite andb_false_r. reflexivity.
  - rewrite pbit_pxor, pbit_pcons, IH, Z.land_spec, mbit_mmul. cbn [pbit].
    destruct (Z.testbit (snd t) i), (mbit (fst t) i), (Z.testbit k i), (mbit m i), (pbit y i); reflexivity.
Qed.
Lemma pbit_pand i : forall x y, pbit (pand x y) i = pbit x i && pbit y i.
Proof.
  induction x as [|[m k] x IH]; intros y; unfold pand in *; cbn [fold_right pbit].
  - reflexivity.
  - rewrite pbit_pxor, pbit_tmul, IH. cbn [fst snd].
    destruct (Z.testbit k i && mbit m i), (pbit x i), (pbit y i); reflexivity.
Qed.
Lemma pbit_por i x y : pbit (por x y) i = pbit x i || pbit y i.
Proof.
  unfold por. rewrite !pbit_pxor, pbit_pand. destruct (pbit x i), (pbit y i); reflexivity.
Qed.
Lemma pbit_pconst c i : pbit (pconst c) i = Z.testbit c i.
Proof. unfold pconst. rewrite pbit_pcons. cbn. rewrite andb_true_r, xorb_false_r. reflexivity. Qed.
Lemma full_bit i : 0 <= i -> Z.testbit full i = (i <? 32).
Proof.
  intros I. change full with (Z.ones 32). destruct (i <? 32) eqn:E.
  - apply Z.ones_spec_low. lia.
  - apply Z.ones_spec_high. lia.
Qed.
Lemma fbit_rot n f i : 0 < n < 32 -> 0 <= i < 32 -> fbit (rot_factor n f) i = fbit f ((i + n) mod 32).
Proof.
  intros N I. unfold fbit, rot_factor. cbn [fst snd]. f_equal.
  destruct (32 <=? snd f + n) eqn:E; lia.
Qed.
Lemma mbit_rot n i : 0 < n < 32 -> 0 <= i < 32 ->
  forall m, mbit (rot_mono n m) i = mbit m ((i + n) mod 32).
Proof.
  intros N I. induction m as [|f m IH]; unfold rot_mono in *; cbn [fold_right]; [reflexivity|].
  rewrite mbit_mmul, IH. unfold mbit. cbn [forallb]. rewrite fbit_rot by assumption.
  rewrite andb_true_r. reflexivity.
Qed.
Lemma ror_mask_bit m n i : 0 < n < 32 -> 0 <= i < 32 ->
  Z.testbit (ror_mask m n) i = Z.testbit m ((i + n) mod 32).
Proof.
  intros N I. unfold ror_mask.
  rewrite Z.lor_spec, !Z.land_spec, !Z.shiftr_spec, Z.shiftl_spec, !full_bit by lia.
  destruct (i + n <? 32) eqn:E.
  - replace ((i + n) mod 32) with (i + n) by lia.
    rewrite (Z.testbit_neg_r m (i - (32 - n))) by lia. rewrite andb_true_r, orb_false_r. reflexivity.
  - replace ((i + n) mod 32) with (i - (32 - n)) by lia.
    replace (i <? 32) with true by lia. rewrite andb_false_r, andb_true_r. reflexivity.
Qed.
Lemma pbit_pror n i : 0 < n < 32 -> 0 <= i < 32 ->
  forall p, pbit (pror n p) i = pbit p ((i + n) mod 32).
Proof.
  intros N I. induction p as [|[m k] p IH]; unfold pror in *; cbn [fold_right pbit]; [reflexivity|].
  rewrite pbit_pxor, pbit_pcons, IH. cbn [fst snd pbit].
  rewrite ror_mask_bit, mbit_rot, xorb_false_r by assumption. reflexivity.
Qed.
Lemma pbit_pmask k i : forall p, pbit (pmask k p) i = Z.testbit k i && pbit p i.
Proof.
  induction p as [|[m c] p IH]; unfold pmask in *; cbn [fold_right pbit].
  - rewrite andb_false_r. reflexivity.
  - rewrite pbit_pcons, Z.land_spec, IH. cbn [fst snd].
    destruct (Z.testbit c i), (Z.testbit k i), (mbit m i), (pbit p i); reflexivity.
Qed.
Lemma pbit_pshr n i p : 0 < n < 32 -> 0 <= i < 32 ->
  pbit (pshr n p) i = (i + n <? 32) && pbit p (i + n).
Proof.
  intros N I. unfold pshr. rewrite pbit_pmask, Z.shiftr_spec, full_bit by lia.
  rewrite pbit_pror by assumption. destruct (i + n <? 32) eqn:E; [|reflexivity].
  replace ((i + n) mod 32) with (i + n) by lia. reflexivity.
Qed.
Lemma pbit_pshl n i p : 0 < n < 32 -> 0 <= i < 32 ->
  pbit (pshl n p) i = (n <=? i) && pbit p (i - n).
Proof.
  intros N I. unfold pshl. rewrite pbit_pmask, Z.land_spec, Z.shiftl_spec, (full_bit i) by lia.
  rewrite pbit_pror by lia. replace (i <? 32) with true by lia. rewrite andb_true_r.
  destruct (n <=? i) eqn:E.
  - rewrite full_bit by lia. replace (i - n <? 32) with true by lia.
    replace ((i + (32 - n)) mod 32) with (i - n) by lia. reflexivity.
  - rewrite Z.testbit_neg_r by lia. reflexivity.
Qed.
Lemma pbit_pbyte s i j p : 0 <= s < 4 -> 0 <= i < 4 -> 0 <= j < 32 ->
  pbit (pbyte s i p) j = ((8 * i <=? j) && (j <? 8 * i + 8)) && pbit p (j + 8 * (s - i)).
Proof.
  intros Hs Hi Hj. unfold pbyte. cbv zeta. rewrite pbit_pmask.
  assert (E : Z.testbit (Z.shiftl 255 (8 * i)) j = (8 * i <=? j) && (j <? 8 * i + 8)).
  { rewrite Z.shiftl_spec by lia. change 255 with (Z.ones 8).
    destruct (8 * i <=? j) eqn:E1; cbn [andb].
    - destruct (j <? 8 * i + 8) eqn:E2.
      + apply Z.ones_spec_low. lia.
      + apply Z.ones_spec_high. lia.
    - apply Z.testbit_neg_r. lia. }
  rewrite E. destruct ((8 * i <=? j) && (j <? 8 * i + 8)) eqn:B; [|reflexivity]. cbn [andb].
  destruct (8 * (s - i) =? 0) eqn:Z0.
  - f_equal. lia.
  - destruct (8 * (s - i) <? 0) eqn:N0.
    + rewrite pbit_pror by lia. f_equal. lia.
    + rewrite pbit_pror by lia. f_equal. lia.
Qed.

(** *** Sums *)
Lemma lsum_lcons a k l : lsum (lcons a k l) = k * env a + lsum l.
Proof. destruct k; cbn [lcons lsum]; lia. Qed.
Lemma land_full x : Z.land x full = x mod 2 ^ 32.
Proof. change full with (Z.ones 32). apply Z.land_ones. lia. Qed.
Lemma lsum_ladd : forall x y, (lsum (ladd x y)) mod 2 ^ 32 = (lsum x + lsum y) mod 2 ^ 32.
Proof.
  induction x as [|[a k] x IHx].
  - intros [|[b k] y]; reflexivity.
  - induction y as [|[b k'] y IHy].
    + cbn [ladd lsum]. f_equal. lia.
    + cbn [ladd]. destruct (Pos.compare a b) eqn:E.
      * apply Pos.compare_eq in E. subst b. rewrite lsum_lcons, land_full. cbn [lsum].
        rewrite Zplus_mod, IHx, <- Zplus_mod.
        rewrite Zplus_mod, Zmult_mod_idemp_l, <- Zplus_mod. f_equal. lia.
      * change (lsum ((b, k') :: ladd ((a, k) :: x) y) mod 2 ^ 32
                = (lsum ((a, k) :: x) + lsum ((b, k') :: y)) mod 2 ^ 32).
        cbn [lsum]. rewrite Zplus_mod, IHy, <- Zplus_mod. cbn [lsum]. f_equal. lia.
      * cbn [lsum]. rewrite Zplus_mod, IHx, <- Zplus_mod. cbn [lsum]. f_equal. lia.
Qed.

(** *** Words *)
Lemma wrel_range w v : w <> SX -> wrel w v -> 0 <= v < 2 ^ 32.
Proof.
  destruct w; cbn [wrel]; intros N H; [congruence| |tauto].
  subst v. apply Z.mod_pos_bound. lia.
Qed.
Lemma word_ext a b : 0 <= a < 2 ^ 32 -> 0 <= b < 2 ^ 32 ->
  (forall i, 0 <= i < 32 -> Z.testbit a i = Z.testbit b i) -> a = b.
Proof.
  intros A B E. apply Z.bits_inj'. intros i I. destruct (Z.ltb_spec i 32) as [L|L].
  - apply E. lia.
  - rewrite <- (Z.mod_small a (2 ^ 32)), <- (Z.mod_small b (2 ^ 32)) by assumption.
    rewrite !Z.mod_pow2_bits_high by lia. reflexivity.
Qed.
Lemma word_high a i : 0 <= a < 2 ^ 32 -> 32 <= i -> Z.testbit a i = false.
Proof.
  intros A I. rewrite <- (Z.mod_small a (2 ^ 32)) by assumption. apply Z.mod_pow2_bits_high. lia.
Qed.
Lemma wrel_fun w v v' : w <> SX -> wrel w v -> wrel w v' -> v = v'.
Proof.
  destruct w; cbn [wrel]; intros N H H'; [congruence|congruence|].
  apply word_ext; try tauto. intros i I. rewrite (proj2 H), (proj2 H') by exact I. reflexivity.
Qed.
Lemma wrel_w32 w v : wrel w v -> wrel w (w32 v).
Proof.
  intros H. destruct w as [| c l|p]; [exact I| |].
  - unfold w32. rewrite Z.mod_small; [exact H|]. eapply wrel_range; [|exact H]. discriminate.
  - unfold w32. rewrite Z.mod_small; [exact H|]. eapply wrel_range; [|exact H]. discriminate.
Qed.
(** a value from its bits *)
Fixpoint bval (f : Z -> bool) (n : nat) : Z :=
  match n with
  | O => 0
  | S n' => bval f n' + (if f (Z.of_nat n') then 2 ^ Z.of_nat n' else 0)
  end.
Lemma bval_spec f : forall n, 0 <= bval f n < 2 ^ Z.of_nat n /\
  forall i, 0 <= i < Z.of_nat n -> Z.testbit (bval f n) i = f i.
Proof.
  induction n as [|n [R B]].
  - split; [cbn; lia|]. intros i I. cbn in I. lia.
  - cbn [bval]. set (v := bval f n) in *. clearbody v.
    assert (P : 2 ^ Z.of_nat (S n) = 2 * 2 ^ Z.of_nat n)
      by (rewrite Nat2Z.inj_succ, Z.pow_succ_r by lia; lia).
    split; [destruct (f (Z.of_nat n)); lia|].
    intros i I. destruct (Z.eq_dec i (Z.of_nat n)) as [->|Ni].
    + rewrite <- (Z.add_0_l (Z.of_nat n)) at 3. rewrite <- Z.div_pow2_bits by lia.
      destruct (f (Z.of_nat n)).
      * replace ((v + 2 ^ Z.of_nat n) / 2 ^ Z.of_nat n) with 1; [reflexivity|].
        rewrite <- (Z.mul_1_l (2 ^ Z.of_nat n)) at 1. rewrite Z.div_add by lia.
        rewrite Z.div_small by lia. reflexivity.
      * rewrite Z.add_0_r, Z.div_small by lia. reflexivity.
    + rewrite <- (Z.mod_pow2_bits_low _ (Z.of_nat n)) by lia.
      replace ((v + (if f (Z.of_nat n) then 2 ^ Z.of_nat n else 0)) mod 2 ^ Z.of_nat n) with v.
      * apply B. lia.
      * destruct (f (Z.of_nat n)).
        -- rewrite <- (Z.mul_1_l (2 ^ Z.of_nat n)) at 1. rewrite Z.mod_add by lia.
           symmetry. apply Z.mod_small. exact R.
        -- rewrite Z.add_0_r. symmetry. apply Z.mod_small. exact R.
Qed.
Definition wval (w : sword) : Z :=
  match w with
  | SX => 0
  | SLin c l => (c + lsum l) mod 2 ^ 32
  | SPoly p => bval (pbit p) 32
  end.
Lemma wval_range w : 0 <= wval w < 2 ^ 32.
Proof.
  destruct w as [|c l|p]; cbn [wval]; [lia|apply Z.mod_pos_bound; lia|].
  exact (proj1 (bval_spec (pbit p) 32)).
Qed.
Lemma wval_wrel w : wrel w (wval w).
Proof.
  destruct w as [|c l|p]; cbn [wrel wval]; auto.
  split; [exact (proj1 (bval_spec (pbit p) 32))|exact (proj2 (bval_spec (pbit p) 32))].
Qed.
End Env.

(** ** An environment for a table *)

(** The atoms a word refers to are below [i]. *)
Definition refs_below (i : positive) (w : sword) : bool :=
  match w with
  | SX => true
  | SLin _ l => forallb (fun x : positive * Z => Pos.ltb (fst x) i) l
  | SPoly p => forallb (fun t : mono * Z => forallb (fun f : factor => Pos.ltb (fst f) i) (fst t)) p
  end.
Definition tbl_ok (T : tbl) : bool := tall refs_below (fun p => p) (nodes T).

Definition Sat (env : positive -> Z) (T : tbl) : Prop :=
  (forall i, 0 <= env i < 2 ^ 32) /\
  (forall i w, tget i (nodes T) = Some w -> wrel env w (env i)).

Lemma lsum_ext e e' i l :
  forallb (fun x : positive * Z => Pos.ltb (fst x) i) l = true ->
  (forall j, (j < i)%positive -> e j = e' j) -> lsum e l = lsum e' l.
Proof.
  intros H E. induction l as [|[a k] l IH]; [reflexivity|].
  cbn [forallb fst] in H. apply andb_prop in H as [A H]. cbn [lsum].
  rewrite IH by assumption. rewrite E by (apply Pos.ltb_lt; exact A). reflexivity.
Qed.
Lemma pbit_ext e e' i p :
  forallb (fun t : mono * Z => forallb (fun f : factor => Pos.ltb (fst f) i) (fst t)) p = true ->
  (forall j, (j < i)%positive -> e j = e' j) -> forall b, pbit e p b = pbit e' p b.
Proof.
  intros H E b. induction p as [|[m k] p IH]; [reflexivity|].
  cbn [forallb fst] in H. apply andb_prop in H as [A H]. cbn [pbit].
  rewrite IH by assumption. do 2 f_equal. unfold mbit.
  induction m as [|f m IHm]; [reflexivity|].
  cbn [forallb fst] in A. apply andb_prop in A as [A1 A]. cbn [forallb].
  rewrite IHm by assumption. unfold fbit. rewrite E by (apply Pos.ltb_lt; exact A1). reflexivity.
Qed.
Lemma bval_ext f g : (forall i, f i = g i) -> forall n, bval f n = bval g n.
Proof. intros E. induction n; cbn [bval]; [reflexivity|]. rewrite IHn, E. reflexivity. Qed.
Lemma wval_ext e e' i w :
  refs_below i w = true -> (forall j, (j < i)%positive -> e j = e' j) -> wval e w = wval e' w.
Proof.
  destruct w as [|c l|p]; cbn [refs_below wval]; intros H E; [reflexivity| |].
  - rewrite (lsum_ext e e' i) by assumption. reflexivity.
  - apply bval_ext. exact (pbit_ext e e' i p H E).
Qed.

Section Build.
Variable e0 : positive -> Z.
Variable T : tbl.
Fixpoint eval (n : nat) (i : positive) : Z :=
  match n with
  | O => 0
  | S n' => match tget i (nodes T) with Some w => wval (eval n') w | None => e0 i end
  end.
Definition env_of (i : positive) : Z := eval (Pos.to_nat i) i.
Hypothesis H0 : forall i, 0 <= e0 i < 2 ^ 32.
Hypothesis HT : tbl_ok T = true.
Lemma eval_enough : forall n m i, (Pos.to_nat i <= n)%nat -> (Pos.to_nat i <= m)%nat ->
  eval n i = eval m i.
Proof.
  induction n as [|n IH]; intros m i L L'; [pose proof (Pos2Nat.is_pos i); lia|].
  destruct m as [|m]; [pose proof (Pos2Nat.is_pos i); lia|]. cbn [eval].
  destruct (tget i (nodes T)) as [w|] eqn:G; [|reflexivity].
  pose proof (tall_get _ _ _ _ _ HT G) as R. cbn in R.
  apply (wval_ext _ _ i); [exact R|]. intros j J. apply Pos2Nat.inj_lt in J. apply IH; lia.
Qed.
Lemma env_of_sat : Sat env_of T.
Proof.
  assert (R : forall n i, 0 <= eval n i < 2 ^ 32).
  { destruct n; intros i; cbn [eval]; [lia|].
    destruct (tget i (nodes T)); [apply wval_range|apply H0]. }
  split; [intros i; apply R|]. intros i w G.
  assert (E : env_of i = wval env_of w).
  { unfold env_of at 1. destruct (Pos.to_nat i) as [|n] eqn:N; [pose proof (Pos2Nat.is_pos i); lia|].
    cbn [eval]. rewrite G. pose proof (tall_get _ _ _ _ _ HT G) as B. cbn in B.
    apply (wval_ext _ _ i); [exact B|]. intros j J. apply Pos2Nat.inj_lt in J.
    unfold env_of. apply eval_enough; lia. }
  rewrite E. apply wval_wrel.
Qed.
Lemma env_of_free i : tget i (nodes T) = None -> env_of i = e0 i.
Proof.
  intros G. unfold env_of. destruct (Pos.to_nat i) as [|n] eqn:N; [pose proof (Pos2Nat.is_pos i); lia|].
  cbn [eval]. rewrite G. reflexivity.
Qed.
End Build.

(** ** The table *)
Definition ext (T T' : tbl) : Prop :=
  forall i w, tget i (nodes T) = Some w -> tget i (nodes T') = Some w.
Lemma ext_refl T : ext T T.
Proof. intros i w H. exact H. Qed.
Lemma ext_trans A B C : ext A B -> ext B C -> ext A C.
Proof. intros H K i w G. apply K, H, G. Qed.
Lemma Sat_ext env T T' : ext T T' -> Sat env T' -> Sat env T.
Proof. intros X [R S]. split; [exact R|]. intros i w G. apply S, X, G. Qed.

Lemma leqb_eq : forall x y, leqb x y = true -> x = y.
Proof.
  induction x as [|[a k] x IH]; intros [|[b k'] y] H; try discriminate; [reflexivity|].
  cbn in H. apply andb_prop in H as [H E]. apply andb_prop in H as [A B].
  apply Pos.eqb_eq in A. apply Z.eqb_eq in B. rewrite (IH _ E). congruence.
Qed.
Lemma peqb_eq : forall x y, peqb x y = true -> x = y.
Proof.
  induction x as [|[a k] x IH]; intros [|[b k'] y] H; try discriminate; [reflexivity|].
  cbn in H. apply andb_prop in H as [H E]. apply andb_prop in H as [A B].
  apply leqb_eq in A. apply Z.eqb_eq in B. rewrite (IH _ E). congruence.
Qed.
Lemma weqb_eq x y : weqb x y = true -> x = y.
Proof.
  destruct x, y; cbn; intros H; try discriminate.
  - apply andb_prop in H as [A B]. apply Z.eqb_eq in A. apply leqb_eq in B. congruence.
  - apply peqb_eq in H. congruence.
Qed.
Lemma lookup_sound T w i : lookup T w = Some i -> tget i (nodes T) = Some w.
Proof.
  unfold lookup. intros F. apply find_some in F as [_ F].
  destruct (tget i (nodes T)) as [w'|]; [|discriminate]. apply weqb_eq in F. congruence.
Qed.
Lemma intern_sound T w T' oi : intern T w = (T', oi) ->
  ext T T' /\ forall i, oi = Some i -> tget i (nodes T') = Some w.
Proof.
  unfold intern. destruct (lookup T w) as [j|] eqn:L; intros E.
  - inversion E; subst. split; [apply ext_refl|]. intros i [= <-]. apply lookup_sound, L.
  - destruct (tget (fresh T) (nodes T)) eqn:G; inversion E; subst; clear E.
    + split; [apply ext_refl|discriminate].
    + split.
      * intros i w' Hi. cbn [nodes]. rewrite tget_set_other; [exact Hi|]. congruence.
      * intros i [= <-]. cbn [nodes]. apply tget_set_same.
Qed.

Lemma wrel_atom env i : (forall i, 0 <= env i < 2 ^ 32) -> wrel env (atom i) (env i).
Proof.
  intros R. unfold atom. cbn [wrel lsum]. replace (0 + (1 * env i + 0)) with (env i) by lia.
  symmetry. apply Z.mod_small, R.
Qed.
Lemma wrel_patom env i : (forall i, 0 <= env i < 2 ^ 32) -> wrel env (SPoly (patom i)) (env i).
Proof.
  intros R. cbn [wrel]. split; [apply R|]. intros b B. cbn [patom pbit mbit forallb].
  unfold fbit. cbn [fst snd]. rewrite full_bit by lia. replace (b <? 32) with true by lia.
  rewrite Z.add_0_r, Z.mod_small, andb_true_r, xorb_false_r by lia. reflexivity.
Qed.
(** an atom that stands for a word can take its place *)
Lemma wrel_node env T w i v : Sat env T -> tget i (nodes T) = Some w -> w <> SX ->
  wrel env w v -> v = env i.
Proof. intros [R S] G N H. eapply wrel_fun; eauto. Qed.

Lemma collapse_sound env T w v : Sat env T -> wrel env w v -> wrel env (collapse T w) v.
Proof.
  intros S H. unfold collapse. destruct w as [|c l|p].
  - unfold lookup. cbn. exact H.
  - destruct l as [|x l]; [exact H|].
    destruct (lookup T _) as [i|] eqn:L; [|exact H]. apply lookup_sound in L.
    rewrite (wrel_node env T _ i v S L) by (discriminate || exact H). apply wrel_atom, S.
  - destruct (lookup T _) as [i|] eqn:L; [|exact H]. apply lookup_sound in L.
    rewrite (wrel_node env T _ i v S L) by (discriminate || exact H). apply wrel_atom, S.
Qed.

Definition sound1 (f : tbl -> sword -> tbl * sword) (g : Z -> Z) : Prop :=
  forall T a T' c, f T a = (T', c) ->
  ext T T' /\ forall env va, Sat env T' -> wrel env a va -> wrel env c (g va).
Definition sound2 (f : tbl -> sword -> sword -> tbl * sword) (g : Z -> Z -> Z) : Prop :=
  forall T a b T' c, f T a b = (T', c) ->
  ext T T' /\ forall env va vb, Sat env T' -> wrel env a va -> wrel env b vb -> wrel env c (g va vb).

Lemma intern_atom T w T' i : intern T w = (T', Some i) -> w <> SX ->
  ext T T' /\ forall env v, Sat env T' -> wrel env w v ->
    wrel env (atom i) v /\ wrel env (SPoly (patom i)) v.
Proof.
  intros E N. apply intern_sound in E as [X E]. split; [exact X|]. intros env v S H.
  rewrite (wrel_node env T' w i v S (E i eq_refl) N H).
  split; [apply wrel_atom, S|apply wrel_patom, S].
Qed.
Lemma share_sound : sound1 share (fun x => x).
Proof.
  intros T a T' c E. unfold share in E.
  assert (Q : forall w, w <> SX ->
    (match intern T w with (T', Some i) => (T', atom i) | (T', None) => (T', SX) end) = (T', c) ->
    ext T T' /\ forall env va, Sat env T' -> wrel env w va -> wrel env c va).
  { intros w N E'. destruct (intern T w) as [T1 [i|]] eqn:I; inversion E'; subst.
    - apply intern_atom in I as [X I]; [|exact N]. split; [exact X|]. intros env va S H. apply I; assumption.
    - apply intern_sound in I as [X _]. split; [exact X|]. intros; exact Logic.I. }
  assert (R : (T, a) = (T', c) -> ext T T' /\ forall env va, Sat env T' -> wrel env a va -> wrel env c va).
  { intros E'. inversion E'; subst. split; [apply ext_refl|auto]. }
  destruct a as [|z [|x l]|[|[[|f m] k] [|t p]]]; try (apply R; exact E); apply Q; (discriminate || exact E).
Qed.

Lemma to_poly_sound T w T' op : to_poly T w = (T', op) ->
  ext T T' /\ forall p, op = Some p -> forall env v, Sat env T' -> wrel env w v -> wrel env (SPoly p) v.
Proof.
  intros E.
  assert (Q : w <> SX ->
    (match intern T w with (T', Some i) => (T', Some (patom i)) | (T', None) => (T', None) end) = (T', op) ->
    ext T T' /\ forall p, op = Some p -> forall env v, Sat env T' -> wrel env w v -> wrel env (SPoly p) v).
  { intros N E'. destruct (intern T w) as [T1 [i|]] eqn:I; inversion E'; subst.
    - apply intern_atom in I as [X I]; [|exact N]. split; [exact X|].
      intros p [= <-] env va S H. apply I; assumption.
    - apply intern_sound in I as [X _]. split; [exact X|]. discriminate. }
  unfold to_poly in E. destruct w as [|c l|p].
  - inversion E; subst. split; [apply ext_refl|discriminate].
  - destruct l as [|[i k] l].
    + assert (E' : (T, Some (pconst c)) = (T', op)) by (destruct c; exact E). clear E Q.
      inversion E'; subst. split; [apply ext_refl|]. intros p [= <-] env v S H.
      cbn [wrel lsum] in *. rewrite Z.add_0_r in H. subst v.
      split; [apply Z.mod_pos_bound; lia|]. intros b B. rewrite pbit_pconst.
      apply Z.mod_pow2_bits_low. lia.
    + assert (D : (c = 0 /\ k = 1 /\ l = [] /\ op = Some (patom i) /\ T' = T) \/
        (match intern T (SLin c ((i, k) :: l)) with
         | (T', Some i) => (T', Some (patom i)) | (T', None) => (T', None) end) = (T', op)).
      { destruct c; auto. destruct k as [|[| |]|]; auto. destruct l; auto.
        inversion E; subst. left. auto. }
      destruct D as [(-> & -> & -> & -> & ->)|D].
      * split; [apply ext_refl|]. intros p [= <-] env v S H.
        cbn [wrel lsum] in H. replace v with (env i); [apply wrel_patom, S|].
        subst v. rewrite Z.mod_small; pose proof (proj1 S i); lia.
      * apply Q; [discriminate|exact D].
  - inversion E; subst. split; [apply ext_refl|]. intros p' [= <-]. auto.
Qed.
Lemma wrel_const_poly env c v : wrel env (SPoly [([], c)]) v -> v = c mod 2 ^ 32.
Proof.
  intros [R B]. apply word_ext; [exact R|apply Z.mod_pos_bound; lia|].
  intros i I. rewrite B by exact I. cbn [pbit mbit forallb]. rewrite andb_true_r, xorb_false_r.
  symmetry. apply Z.mod_pow2_bits_low. lia.
Qed.
Lemma wrel_nil_poly env v : wrel env (SPoly []) v -> v = 0.
Proof.
  intros [R B]. apply word_ext; [exact R|lia|]. intros i I. rewrite B by exact I.
  rewrite Z.testbit_0_l. reflexivity.
Qed.
Lemma to_lin_sound T w T' o : to_lin T w = (T', o) ->
  ext T T' /\ forall c l, o = Some (c, l) -> forall env v, Sat env T' -> wrel env w v -> wrel env (SLin c l) v.
Proof.
  intros E.
  assert (Q : w <> SX ->
    (match intern T w with (T', Some i) => (T', Some (0, [(i, 1)])) | (T', None) => (T', None) end) = (T', o) ->
    ext T T' /\ forall c l, o = Some (c, l) -> forall env v, Sat env T' -> wrel env w v -> wrel env (SLin c l) v).
  { intros N E'. destruct (intern T w) as [T1 [i|]] eqn:I; inversion E'; subst.
    - apply intern_atom in I as [X I]; [|exact N]. split; [exact X|].
      intros c l [= <- <-] env va S H. apply I; assumption.
    - apply intern_sound in I as [X _]. split; [exact X|]. discriminate. }
  unfold to_lin in E. destruct w as [|c l|p].
  - inversion E; subst. split; [apply ext_refl|discriminate].
  - inversion E; subst. split; [apply ext_refl|]. intros c' l' [= <- <-]. auto.
  - assert (D : (p = [] /\ T' = T /\ o = Some (0, [])) \/
                (exists c, p = [([], c)] /\ T' = T /\ o = Some (c, [])) \/
                (if match p with [([(i, 0)], k)] => Z.eqb k full | _ => false end
                 then (T, Some (0, [(pkey p, 1)]))
                 else match intern T (SPoly p) with
                      | (T', Some i) => (T', Some (0, [(i, 1)]))
                      | (T', None) => (T', None)
                      end) = (T', o)).
    { clear Q. destruct p as [|[[|f m] k] [|t p]].
      - left. inversion E; auto.
      - right; left. inversion E; subst. eauto.
      - right; right. exact E.
      - right; right. exact E.
      - right; right. exact E. }
    clear E. destruct D as [(-> & -> & ->)|[(c & -> & -> & ->)|D]].
    + split; [apply ext_refl|]. intros c l [= <- <-] env v S H. apply wrel_nil_poly in H. subst v. reflexivity.
    + split; [apply ext_refl|]. intros c' l [= <- <-] env v S H. apply wrel_const_poly in H. subst v.
      cbn [wrel lsum]. rewrite Z.add_0_r. reflexivity.
    + destruct (match p with [([(i, 0)], k)] => Z.eqb k full | _ => false end) eqn:B.
      * inversion D; subst. split; [apply ext_refl|]. intros c l [= <- <-] env v S H.
        destruct p as [|[[|[i [|z|z]] [|f m]] k] [|t p]]; try discriminate B.
        apply Z.eqb_eq in B. subst k. cbn [pkey].
        replace v with (env i); [apply wrel_atom, S|].
        apply (wrel_fun env (SPoly (patom i))); [discriminate|apply wrel_patom, S|exact H].
      * apply Q; [discriminate|exact D].
Qed.
Lemma const_of_sound env w c v : const_of w = Some c -> wrel env w v -> v = c mod 2 ^ 32.
Proof.
  intros E H. destruct w as [|c' [|x l]|[|[[|f m] k] [|t p]]]; try discriminate; inversion E; subst; clear E.
  - cbn in H. rewrite Z.add_0_r in H. exact H.
  - apply wrel_nil_poly in H. subst v. reflexivity.
  - apply wrel_const_poly in H. exact H.
Qed.

(** ** Operations *)
Lemma lift1_sound f g :
  (forall env p v, wrel env (SPoly p) v -> wrel env (SPoly (f p)) (g v)) -> sound1 (lift1 f) g.
Proof.
  intros F T a T' c E. unfold lift1 in E. destruct (to_poly T a) as [T1 [p|]] eqn:P;
    apply to_poly_sound in P as [X P]; inversion E; subst; (split; [exact X|]).
  - intros env va S H. apply F. exact (P p eq_refl env va S H).
  - intros; exact I.
Qed.
Lemma lift2_sound f g :
  (forall env p q u v, wrel env (SPoly p) u -> wrel env (SPoly q) v -> wrel env (SPoly (f p q)) (g u v)) ->
  sound2 (lift2 f) g.
Proof.
  intros F T a b T' c E. unfold lift2 in E. destruct (to_poly T a) as [T1 [p|]] eqn:P;
    apply to_poly_sound in P as [X P].
  - destruct (to_poly T1 b) as [T2 [q|]] eqn:Q; apply to_poly_sound in Q as [Y Q];
      inversion E; subst; (split; [exact (ext_trans _ _ _ X Y)|]).
    + intros env va vb S A B. apply F.
      * exact (P p eq_refl env va (Sat_ext _ _ _ Y S) A).
      * exact (Q q eq_refl env vb S B).
    + intros; exact I.
  - inversion E; subst. split; [exact X|]. intros; exact I.
Qed.
Lemma bitwise_range f u v :
  (forall i, 0 <= i -> Z.testbit u i = false -> Z.testbit v i = false -> Z.testbit f i = false) ->
  0 <= f -> 0 <= u < 2 ^ 32 -> 0 <= v < 2 ^ 32 -> 0 <= f < 2 ^ 32.
Proof.
  intros B F U V. split; [exact F|].
  destruct (Z.eq_dec f 0) as [->|N]; [lia|].
  assert (L : Z.log2 f < 32).
  { destruct (Z.ltb_spec (Z.log2 f) 32) as [L|L]; [exact L|].
    pose proof (Z.bit_log2 f) as K. rewrite B in K; try (lia || (apply word_high; lia)). }
  apply Z.log2_lt_pow2; lia.
Qed.
Lemma sxor_sound : sound2 sxor Z.lxor.
Proof.
  apply lift2_sound. intros env p q u v [RU U] [RV V]. split.
  - apply (bitwise_range _ u v); auto.
    + intros i I A B. rewrite Z.lxor_spec, A, B. reflexivity.
    + apply Z.lxor_nonneg. lia.
  - intros i I. rewrite Z.lxor_spec, U, V, pbit_pxor by exact I. reflexivity.
Qed.
Lemma sand_sound : sound2 sand Z.land.
Proof.
  apply lift2_sound. intros env p q u v [RU U] [RV V]. split.
  - apply (bitwise_range _ u v); auto.
    + intros i I A B. rewrite Z.land_spec, A, B. reflexivity.
    + apply Z.land_nonneg. lia.
  - intros i I. rewrite Z.land_spec, U, V, pbit_pand by exact I. reflexivity.
Qed.
Lemma sor_sound : sound2 sor Z.lor.
Proof.
  apply lift2_sound. intros env p q u v [RU U] [RV V]. split.
  - apply (bitwise_range _ u v); auto.
    + intros i I A B. rewrite Z.lor_spec, A, B. reflexivity.
    + apply Z.lor_nonneg. lia.
  - intros i I. rewrite Z.lor_spec, U, V, pbit_por by exact I. reflexivity.
Qed.
Lemma shr32_bit v n i : 0 <= v < 2 ^ 32 -> 0 < n < 32 -> 0 <= i ->
  Z.testbit (shr32 v n) i = (i + n <? 32) && Z.testbit v (i + n).
Proof.
  intros V N I. unfold shr32. rewrite Z.shiftr_spec by lia.
  destruct (i + n <? 32) eqn:E; [reflexivity|]. apply word_high; lia.
Qed.
Lemma shr32_range v n : 0 <= v < 2 ^ 32 -> 0 <= n -> 0 <= shr32 v n < 2 ^ 32.
Proof.
  intros V N. unfold shr32. rewrite Z.shiftr_div_pow2 by lia.
  assert (P : 1 <= 2 ^ n) by (pose proof (Z.pow_pos_nonneg 2 n); lia).
  split; [apply Z.div_pos; lia|]. apply Z.le_lt_trans with v; [|lia].
  apply Z.div_le_upper_bound; nia.
Qed.
Lemma shl32_bit v n i : 0 < n < 32 -> 0 <= i < 32 ->
  Z.testbit (shl32 v n) i = (n <=? i) && Z.testbit v (i - n).
Proof.
  intros N I. unfold shl32, w32. rewrite Z.mod_pow2_bits_low by lia. rewrite Z.shiftl_spec by lia.
  destruct (n <=? i) eqn:E; [reflexivity|]. apply Z.testbit_neg_r. lia.
Qed.
Lemma shl32_range v n : 0 <= shl32 v n < 2 ^ 32.
Proof. unfold shl32, w32. apply Z.mod_pos_bound. lia. Qed.
Lemma lor_range u v : 0 <= u < 2 ^ 32 -> 0 <= v < 2 ^ 32 -> 0 <= Z.lor u v < 2 ^ 32.
Proof.
  intros U V. apply (bitwise_range _ u v); auto.
  - intros i I A B. rewrite Z.lor_spec, A, B. reflexivity.
  - apply Z.lor_nonneg. lia.
Qed.
Lemma ror32_bit v n i : 0 <= v < 2 ^ 32 -> 0 < n < 32 -> 0 <= i < 32 ->
  Z.testbit (ror32 v n) i = Z.testbit v ((i + n) mod 32).
Proof.
  intros V N I. unfold ror32. rewrite Z.lor_spec, shr32_bit, shl32_bit by lia.
  destruct (i + n <? 32) eqn:E; cbn [andb].
  - replace (32 - n <=? i) with false by lia. cbn [andb]. rewrite orb_false_r. f_equal. lia.
  - replace (32 - n <=? i) with true by lia. cbn [andb orb]. f_equal. lia.
Qed.
Lemma ror32_range v n : 0 <= v < 2 ^ 32 -> 0 <= n -> 0 <= ror32 v n < 2 ^ 32.
Proof. intros V N. unfold ror32. apply lor_range; [apply shr32_range; lia|apply shl32_range]. Qed.
Lemma sshr_sound n : 0 < n < 32 -> sound1 (sshr n) (fun v => shr32 v n).
Proof.
  intros N. apply lift1_sound. intros env p v [R B]. split; [apply shr32_range; lia|].
  intros i I. rewrite shr32_bit, pbit_pshr by lia.
  destruct (i + n <? 32) eqn:E; [|reflexivity]. cbn [andb]. apply B. lia.
Qed.
Lemma sshl_sound n : 0 < n < 32 -> sound1 (sshl n) (fun v => shl32 v n).
Proof.
  intros N. apply lift1_sound. intros env p v [R B]. split; [apply shl32_range|].
  intros i I. rewrite shl32_bit, pbit_pshl by lia.
  destruct (n <=? i) eqn:E; [|reflexivity]. cbn [andb]. apply B. lia.
Qed.
Lemma sror_sound n : 0 < n < 32 -> sound1 (sror n) (fun v => ror32 v n).
Proof.
  intros N. apply lift1_sound. intros env p v [R B]. split; [apply ror32_range; lia|].
  intros i I. rewrite ror32_bit, pbit_pror by lia. apply B. lia.
Qed.
Lemma snot_sound : sound1 snot not32.
Proof.
  apply lift1_sound. intros env p v [R B]. unfold not32. change (2 ^ 32 - 1) with full. split.
  - apply (bitwise_range _ v full); auto; try (unfold full; lia).
    + intros i I A C. rewrite Z.lxor_spec, A, C. reflexivity.
    + apply Z.lxor_nonneg. unfold full. lia.
  - intros i I. rewrite Z.lxor_spec, B, pbit_pxor, pbit_pconst by exact I. reflexivity.
Qed.
Lemma sadd_sound : sound2 sadd add32.
Proof.
  intros T a b T' c E. unfold sadd in E. destruct (to_lin T a) as [T1 [[k l]|]] eqn:P;
    apply to_lin_sound in P as [X P].
  - destruct (to_lin T1 b) as [T2 [[k' l']|]] eqn:Q; apply to_lin_sound in Q as [Y Q];
      apply pair_equal_spec in E as [<- <-]; (split; [exact (ext_trans _ _ _ X Y)|]).
    + intros env va vb S A B. apply collapse_sound; [exact S|].
      specialize (P _ _ eq_refl env va (Sat_ext _ _ _ Y S) A).
      specialize (Q _ _ eq_refl env vb S B). cbn [wrel] in *. subst va vb.
      rewrite land_full. unfold add32, w32.
      rewrite <- Zplus_mod. rewrite (Zplus_mod ((k + k') mod 2 ^ 32)).
      rewrite lsum_ladd, Zmod_mod, <- Zplus_mod. f_equal. lia.
    + intros; exact I.
  - apply pair_equal_spec in E as [<- <-]. split; [exact X|]. intros; exact I.
Qed.

(** ** Bytes *)
Definition byte_of (s v : Z) : Z := (v / 2 ^ (8 * s)) mod 256.
Definition brel (env : positive -> Z) (x : option (sword * Z)) (b : Z) : Prop :=
  match x with
  | None => b = 0
  | Some (w, s) => 0 <= s < 4 /\ exists v, wrel env w v /\ b = byte_of s v
  end.
Lemma byte_of_range s v : 0 <= byte_of s v < 256.
Proof. unfold byte_of. apply Z.mod_pos_bound. lia. Qed.
Lemma byte_of_bit s v k : 0 <= s -> 0 <= k < 8 -> Z.testbit (byte_of s v) k = Z.testbit v (k + 8 * s).
Proof.
  intros S K. unfold byte_of. change 256 with (2 ^ 8).
  rewrite Z.mod_pow2_bits_low, Z.div_pow2_bits by lia. reflexivity.
Qed.
Lemma cons_byte_bit b r k : 0 <= b < 256 -> 0 <= k ->
  Z.testbit (b + 256 * r) k = if k <? 8 then Z.testbit b k else Z.testbit r (k - 8).
Proof.
  intros B K. destruct (k <? 8) eqn:E.
  - rewrite <- (Z.mod_pow2_bits_low _ 8) by lia. f_equal. change (2 ^ 8) with 256. lia.
  - replace k with ((k - 8) + 8) at 1 by lia. rewrite <- Z.div_pow2_bits by lia. f_equal.
    change (2 ^ 8) with 256. lia.
Qed.
Lemma byte_high b k : 0 <= b < 256 -> 8 <= k -> Z.testbit b k = false.
Proof.
  intros B K. rewrite <- (Z.mod_small b (2 ^ 8)) by (change (2 ^ 8) with 256; lia).
  apply Z.mod_pow2_bits_high. lia.
Qed.
Lemma brel_range env x b : brel env x b -> 0 <= b < 256.
Proof.
  destruct x as [[w s]|]; cbn.
  - intros (_ & v & _ & ->). apply byte_of_range.
  - intros ->. lia.
Qed.
Lemma spick_sound T i x T' o : spick T i x = (T', o) ->
  ext T T' /\ forall p, o = Some p -> forall env b, Sat env T' -> brel env x b -> 0 <= i < 4 ->
  forall j, 0 <= j < 32 -> pbit env p j = (8 * i <=? j) && (j <? 8 * i + 8) && Z.testbit b (j - 8 * i).
Proof.
  destruct x as [[w s]|]; cbn [spick]; intros E.
  - destruct (to_poly T w) as [T1 [p|]] eqn:P; apply to_poly_sound in P as [X P];
      apply pair_equal_spec in E as [<- <-]; (split; [exact X|]); [|discriminate].
    intros q [= <-] env b S (R & v & W & ->) I j J.
    destruct (P p eq_refl env v S W) as [_ B].
    rewrite pbit_pbyte by lia.
    destruct ((8 * i <=? j) && (j <? 8 * i + 8)) eqn:C; [|reflexivity]. cbn [andb].
    rewrite byte_of_bit by lia. rewrite <- B by lia. f_equal. lia.
  - apply pair_equal_spec in E as [<- <-]. split; [apply ext_refl|].
    intros q [= <-] env b S B I j J. cbn in B. subst b. rewrite Z.testbit_0_l, andb_false_r. reflexivity.
Qed.
Lemma sbytes_sound : forall l T i T' o, sbytes T i l = (T', o) ->
  ext T T' /\ forall q, o = Some q -> forall env bs, Sat env T' -> Forall2 (brel env) l bs ->
  0 <= i -> i + zlen l <= 4 ->
  forall j, 0 <= j < 32 -> pbit env q j = (8 * i <=? j) && Z.testbit (le_val bs) (j - 8 * i).
Proof.
  induction l as [|x l IH]; intros T i T' o E; cbn [sbytes] in E.
  - apply pair_equal_spec in E as [<- <-]. split; [apply ext_refl|].
    intros q [= <-] env bs S F I L j J. inversion F; subst. cbn [le_val pbit].
    rewrite Z.testbit_0_l, andb_false_r. reflexivity.
  - destruct (spick T i x) as [T1 [p|]] eqn:P; apply spick_sound in P as [X P].
    + destruct (sbytes T1 (i + 1) l) as [T2 [q|]] eqn:Q; apply IH in Q as [Y Q];
        apply pair_equal_spec in E as [<- <-]; (split; [exact (ext_trans _ _ _ X Y)|]); [|discriminate].
      intros q' [= <-] env bs S F I L j J. inversion F as [|? b ? r Fx Fr]; subst.
      assert (LL : zlen (x :: l) = zlen l + 1) by (unfold zlen; cbn [length]; lia).
      assert (L0 : 0 <= zlen l) by (unfold zlen; lia).
      rewrite pbit_pxor, (P p eq_refl env b (Sat_ext _ _ _ Y S) Fx) by lia.
      rewrite (Q q eq_refl env r S Fr) by lia. cbn [le_val].
      destruct (8 * i <=? j) eqn:E1; cbn [andb xorb].
      * rewrite cons_byte_bit by (try apply (brel_range env x b Fx); lia).
        destruct (j <? 8 * i + 8) eqn:E2; cbn [andb].
        -- replace (8 * (i + 1) <=? j) with false by lia. replace (j - 8 * i <? 8) with true by lia.
           rewrite xorb_false_r. reflexivity.
        -- replace (8 * (i + 1) <=? j) with true by lia. replace (j - 8 * i <? 8) with false by lia.
           cbn [xorb andb]. replace (j - 8 * (i + 1)) with (j - 8 * i - 8) by lia.
           destruct (Z.testbit _ _); reflexivity.
      * replace (8 * (i + 1) <=? j) with false by lia. reflexivity.
    + apply pair_equal_spec in E as [<- <-]. split; [exact X|discriminate].
Qed.
Lemma le_val_range bs : Forall (fun b => 0 <= b < 256) bs -> 0 <= le_val bs < 256 ^ zlen bs.
Proof.
  induction bs as [|b bs IH]; intros F.
  - cbn. lia.
  - inversion F; subst. cbn [le_val].
    assert (L : zlen (b :: bs) = zlen bs + 1) by (unfold zlen; cbn [length]; lia).
    rewrite L, Z.pow_add_r by (unfold zlen; lia). change (256 ^ 1) with 256. specialize (IH H2). lia.
Qed.
Lemma sassemble_sound T l T' c : sassemble T l = (T', c) -> length l = 4%nat ->
  ext T T' /\ forall env bs, Sat env T' -> Forall2 (brel env) l bs -> wrel env c (le_val bs).
Proof.
  intros E L. unfold sassemble in E. destruct (sbytes T 0 l) as [T1 [p|]] eqn:Q;
    apply sbytes_sound in Q as [X Q]; apply pair_equal_spec in E as [<- <-]; (split; [exact X|]).
  - intros env bs S F. apply collapse_sound; [exact S|]. cbn [wrel]. split.
    + assert (Z4 : 256 ^ zlen bs = 2 ^ 32).
      { unfold zlen. replace (length bs) with 4%nat; [reflexivity|].
        rewrite <- L. clear -F. induction F; cbn [length]; congruence. }
      rewrite <- Z4. apply le_val_range. clear -F. induction F; constructor; auto.
      eapply brel_range; eauto.
    + intros i I. rewrite (Q p eq_refl env bs S F) by (unfold zlen; lia).
      replace (8 * 0 <=? i) with true by lia. cbn [andb]. f_equal. lia.
  - intros; exact I.
Qed.
Lemma le_bytes4 v : le_bytes 4 v = [byte_of 0 v; byte_of 1 v; byte_of 2 v; byte_of 3 v].
Proof.
  cbn [le_bytes]. unfold byte_of. rewrite !Z.div_div by lia.
  change (2 ^ (8 * 0)) with 1. rewrite Z.div_1_r. reflexivity.
Qed.
Lemma sbswap_sound : sound1 sbswap (fun v => le_val (rev (le_bytes 4 v))).
Proof.
  intros T a T' c E. apply sassemble_sound in E as [X E]; [|reflexivity].
  split; [exact X|]. intros env va S H. rewrite le_bytes4. cbn [rev app].
  apply E; [exact S|]. repeat constructor; try lia; exists va; auto.
Qed.

(** ** Composite operations *)
Ltac extt :=
  solve [repeat first [apply ext_refl | eassumption | (eapply ext_trans; [eassumption|])]].
Ltac satt := solve [eassumption | eapply Sat_ext; [|eassumption]; extt].
Ltac stp lem H :=
  match type of H with
  | (let (_, _) := ?e in _) = _ =>
      let E := fresh "E" in
      destruct e eqn:E; apply lem in E; destruct E as [? ?]
  end.
Ltac fin lem H := apply lem in H; destruct H as [? ?].
Ltac wr :=
  repeat first
    [ eassumption
    | satt
    | match goal with H : forall env, _ |- wrel _ _ _ => eapply H end ].

Definition sound3 (f : tbl -> sword -> sword -> sword -> tbl * sword) (g : Z -> Z -> Z -> Z) : Prop :=
  forall T a b d T' c, f T a b d = (T', c) ->
  ext T T' /\ forall env va vb vd, Sat env T' -> wrel env a va -> wrel env b vb -> wrel env d vd ->
  wrel env c (g va vb vd).

Lemma sshld_sound n : 0 < n < 32 ->
  sound2 (sshld n) (fun x y => Z.lor (shl32 x n) (shr32 y (32 - n))).
Proof.
  intros N T a b T' c E. unfold sshld in E.
  stp (sshl_sound n N) E. stp (sshr_sound (32 - n) ltac:(lia)) E. fin sor_sound E.
  split; [extt|]. intros env va vb S A B. wr.
Qed.
Lemma ssigma0_sound : sound1 ssigma0 xsigma0.
Proof.
  intros T a T' c E. unfold ssigma0, sxor3 in E.
  stp (sror_sound 7 ltac:(lia)) E. stp (sror_sound 18 ltac:(lia)) E. stp (sshr_sound 3 ltac:(lia)) E.
  stp sxor_sound E. fin sxor_sound E. split; [extt|]. intros env va S A. unfold xsigma0. wr.
Qed.
Lemma ssigma1_sound : sound1 ssigma1 xsigma1.
Proof.
  intros T a T' c E. unfold ssigma1, sxor3 in E.
  stp (sror_sound 17 ltac:(lia)) E. stp (sror_sound 19 ltac:(lia)) E. stp (sshr_sound 10 ltac:(lia)) E.
  stp sxor_sound E. fin sxor_sound E. split; [extt|]. intros env va S A. unfold xsigma1. wr.
Qed.
Lemma sSigma0_sound : sound1 sSigma0 xSigma0.
Proof.
  intros T a T' c E. unfold sSigma0, sxor3 in E.
  stp (sror_sound 2 ltac:(lia)) E. stp (sror_sound 13 ltac:(lia)) E. stp (sror_sound 22 ltac:(lia)) E.
  stp sxor_sound E. fin sxor_sound E. split; [extt|]. intros env va S A. unfold xSigma0. wr.
Qed.
Lemma sSigma1_sound : sound1 sSigma1 xSigma1.
Proof.
  intros T a T' c E. unfold sSigma1, sxor3 in E.
  stp (sror_sound 6 ltac:(lia)) E. stp (sror_sound 11 ltac:(lia)) E. stp (sror_sound 25 ltac:(lia)) E.
  stp sxor_sound E. fin sxor_sound E. split; [extt|]. intros env va S A. unfold xSigma1. wr.
Qed.
Lemma sCh_sound : sound3 sCh xCh.
Proof.
  intros T a b d T' c E. unfold sCh in E.
  stp sand_sound E. stp snot_sound E. stp sand_sound E. fin sxor_sound E.
  split; [extt|]. intros env va vb vd S A B D. unfold xCh. wr.
Qed.
Lemma sMaj_sound : sound3 sMaj xMaj.
Proof.
  intros T a b d T' c E. unfold sMaj, sxor3 in E.
  stp sand_sound E. stp sand_sound E. stp sand_sound E. stp sxor_sound E. fin sxor_sound E.
  split; [extt|]. intros env va vb vd S A B D. unfold xMaj. wr.
Qed.

(** ** The compression function *)
Lemma wrel_nth env l vs i : Forall2 (wrel env) l vs -> wrel env (nth i l SX) (nth i vs 0).
Proof. intros F. revert i. induction F; intros [|i]; cbn; auto. Qed.
Lemma F2_length {A B} (R : A -> B -> Prop) l vs : Forall2 R l vs -> length l = length vs.
Proof. induction 1; cbn; congruence. Qed.

Lemma x_sigma0 v : xsigma0 v = sigma0 v.  Proof. reflexivity. Qed.
Lemma x_sigma1 v : xsigma1 v = sigma1 v.  Proof. reflexivity. Qed.
Lemma x_Sigma0 v : xSigma0 v = Sigma0 v.  Proof. reflexivity. Qed.
Lemma x_Sigma1 v : xSigma1 v = Sigma1 v.  Proof. reflexivity. Qed.
Lemma x_Ch e f g : 0 <= e < 2 ^ 32 -> xCh e f g = Ch e f g.
Proof.
  intros R. unfold xCh, Ch. do 2 f_equal. unfold not32, wnot. change (2 ^ 32 - 1) with (Z.ones 32).
  apply Z.bits_inj'. intros i I. rewrite Z.lxor_spec.
  destruct (Z.ltb_spec i 32) as [L|L].
  - rewrite Z.ones_spec_low, xorb_true_r by lia.
    replace (Z.ones 32 - e) with (Z.lnot e + 2 ^ 32 * 1) by (unfold Z.lnot; change (Z.ones 32) with (2 ^ 32 - 1); lia).
    rewrite <- (Z.mod_pow2_bits_low (_ + _) 32) by lia. rewrite (Z.mul_comm (2 ^ 32)), Z.mod_add by lia.
    rewrite Z.mod_pow2_bits_low by lia. rewrite Z.lnot_spec by lia. reflexivity.
  - rewrite Z.ones_spec_high, (word_high e), (word_high (Z.ones 32 - e)) by
      (try (change (Z.ones 32) with (2 ^ 32 - 1)); lia). reflexivity.
Qed.
Lemma x_Maj a b c : xMaj a b c = Maj a b c.  Proof. reflexivity. Qed.
Lemma x_add a b : add32 a b = wadd a b.  Proof. reflexivity. Qed.

Lemma Forall2_snoc {A B} (R : A -> B -> Prop) l vs x v :
  Forall2 R l vs -> R x v -> Forall2 R (l ++ [x]) (vs ++ [v]).
Proof. intros F H. apply Forall2_app; auto. Qed.
Lemma sschedule_sound : forall n T w T' w', sschedule n T w = (T', w') ->
  ext T T' /\ forall env vs, Sat env T' -> Forall2 (wrel env) w vs ->
  Forall2 (wrel env) w' (schedule n vs).
Proof.
  induction n as [|n IH]; intros T w T' w' E; cbn [sschedule] in E.
  - apply pair_equal_spec in E as [<- <-]. split; [apply ext_refl|]. auto.
  - cbv zeta in E. stp ssigma1_sound E. stp sadd_sound E. stp ssigma0_sound E. stp sadd_sound E.
    stp sadd_sound E. stp share_sound E. fin IH E. split; [extt|].
    intros env vs S F. cbn [schedule]. cbv zeta. rewrite <- (F2_length _ _ _ F).
    match goal with H : forall env vs, _ -> _ -> Forall2 _ w' _ |- _ => apply H end; [exact S|].
    apply Forall2_snoc; [exact F|]. rewrite <- !x_add, <- x_sigma0, <- x_sigma1.
    wr; apply wrel_nth; exact F.
Qed.
Lemma wrel_const env c : 0 <= c < 2 ^ 32 -> wrel env (sconst c) c.
Proof. intros R. cbn [sconst wrel lsum]. rewrite Z.add_0_r, Z.mod_small; auto. Qed.
Lemma sround_sound T st kw T' st' : sround T st kw = (T', st') ->
  ext T T' /\ forall env vs v, Sat env T' -> Forall2 (wrel env) st vs ->
  Forall (fun x => 0 <= x < 2 ^ 32) vs ->
  0 <= fst kw < 2 ^ 32 -> wrel env (snd kw) v -> Forall2 (wrel env) st' (round vs (fst kw, v)).
Proof.
  intros E.
  destruct st as [|a [|b [|c [|d [|e [|f [|g [|h [|x st]]]]]]]]]; cbn [sround] in E;
    try (apply pair_equal_spec in E as [<- <-]; split; [apply ext_refl|];
         intros env vs v S F R K V;
         repeat match goal with H : Forall2 _ (_ :: _) _ |- _ => inversion H; subst; clear H end;
         match goal with H : Forall2 _ [] _ |- _ => inversion H; subst end; constructor).
  - stp sSigma1_sound E. stp sadd_sound E. stp sCh_sound E. stp sadd_sound E. stp sadd_sound E.
    stp sadd_sound E. stp sSigma0_sound E. stp sMaj_sound E. stp sadd_sound E. stp sadd_sound E.
    stp share_sound E. stp sadd_sound E. stp share_sound E.
    apply pair_equal_spec in E as [<- <-]. split; [extt|].
    intros env vs v S F R K V.
    destruct vs as [|va [|vb [|vc [|vd [|ve [|vf [|vg [|vh [|y vs]]]]]]]]];
      try (apply F2_length in F; discriminate F).
    repeat match goal with H : Forall2 _ (_ :: _) _ |- _ => inversion H; subst; clear H end.
    cbn [round]. cbv zeta. cbn [fst snd].
    rewrite <- !x_add, <- x_Sigma0, <- x_Sigma1, <- x_Maj.
    rewrite <- x_Ch by (rewrite Forall_forall in R; apply R; cbn; tauto).
    pose proof (wrel_const env (fst kw) K) as WK.
    repeat (constructor; [try assumption|]); [| |constructor]; wr.
  - apply pair_equal_spec in E as [<- <-]. split; [apply ext_refl|].
    intros env vs v S F R K V.
    do 9 (destruct vs as [|? vs]; [apply F2_length in F; discriminate F|]). cbn [round]. constructor.
Qed.
Lemma wadd_range x y : 0 <= wadd x y < 2 ^ 32.
Proof. unfold wadd. apply Z.mod_pos_bound. lia. Qed.
Lemma round_range vs kw : Forall (fun x => 0 <= x < 2 ^ 32) vs ->
  Forall (fun x => 0 <= x < 2 ^ 32) (round vs kw).
Proof.
  intros R.
  destruct vs as [|va [|vb [|vc [|vd [|ve [|vf [|vg [|vh [|y vs]]]]]]]]]; cbn [round]; try constructor;
    cbv zeta; repeat match goal with H : Forall _ (_ :: _) |- _ => inversion H; subst; clear H end.
  - apply wadd_range.
  - repeat (constructor; try assumption). all: apply wadd_range.
Qed.
Lemma srounds_sound : forall K w T st T' st', srounds T st (combine K w) = (T', st') ->
  ext T T' /\ forall env vs ws, Sat env T' -> Forall2 (wrel env) st vs ->
  Forall (fun x => 0 <= x < 2 ^ 32) vs -> Forall (fun k => 0 <= k < 2 ^ 32) K ->
  Forall2 (wrel env) w ws ->
  Forall2 (wrel env) st' (fold_left round (combine K ws) vs).
Proof.
  induction K as [|k K IH]; intros w T st T' st' E.
  - cbn [combine srounds] in E. apply pair_equal_spec in E as [<- <-]. split; [apply ext_refl|auto].
  - destruct w as [|x w].
    + cbn [combine srounds] in E. apply pair_equal_spec in E as [<- <-]. split; [apply ext_refl|].
      intros env vs ws S F R FK FW. inversion FW; subst. exact F.
    + cbn [combine srounds] in E. stp sround_sound E. fin IH E. split; [extt|].
      intros env vs ws S F R FK FW. inversion FW; subst. inversion FK; subst. cbn [combine fold_left].
      match goal with H : forall env vs ws, _ |- _ => apply H end; auto.
      * match goal with H : forall env vs v, _ |- _ => apply H end; auto. satt.
      * apply round_range. exact R.
Qed.
Lemma sadds_sound : forall x y T T' z, sadds T (combine x y) = (T', z) ->
  ext T T' /\ forall env vx vy, Sat env T' -> Forall2 (wrel env) x vx -> Forall2 (wrel env) y vy ->
  Forall2 (wrel env) z (map (fun p : Z * Z => wadd (fst p) (snd p)) (combine vx vy)).
Proof.
  induction x as [|a x IH]; intros y T T' z E.
  - cbn [combine sadds] in E. apply pair_equal_spec in E as [<- <-]. split; [apply ext_refl|].
    intros env vx vy S F G. inversion F; subst. constructor.
  - destruct y as [|b y].
    + cbn [combine sadds] in E. apply pair_equal_spec in E as [<- <-]. split; [apply ext_refl|].
      intros env vx vy S F G. inversion G; subst. destruct vx; constructor.
    + cbn [combine sadds] in E. stp sadd_sound E. stp share_sound E. stp IH E.
      apply pair_equal_spec in E as [<- <-]. split; [extt|].
      intros env vx vy S F G. inversion F; subst. inversion G; subst. cbn [combine map fst snd].
      constructor.
      * rewrite <- x_add. wr.
      * match goal with H : forall env vx vy, _ |- _ => apply H end; auto.
Qed.
Lemma scompress_sound T h m T' z : scompress T K h m = (T', z) ->
  ext T T' /\ forall env vh vm, Sat env T' -> Forall2 (wrel env) h vh -> Forall2 (wrel env) m vm ->
  Forall (fun x => 0 <= x < 2 ^ 32) vh ->
  Forall2 (wrel env) z (compress vh vm).
Proof.
  intros E. unfold scompress in E. stp sschedule_sound E. stp srounds_sound E. fin sadds_sound E.
  split; [extt|]. intros env vh vm S F G R. unfold compress. cbv zeta.
  match goal with H : forall env vx vy, _ |- Forall2 _ z _ => apply H end; auto.
  match goal with H : forall env vs ws, _ |- _ => apply H end; auto; [satt| |].
  - apply Forall_forall. intros k Hk.
    assert (B : forallb (fun k => (0 <=? k) && (k <? 2 ^ 32)) K = true) by (vm_compute; reflexivity).
    rewrite forallb_forall in B. specialize (B k Hk). lia.
  - match goal with H : forall env vs, _ |- _ => apply H end; auto. satt.
Qed.
