(** Proofs about helpers/math.hpp. *)
From Coq Require Import ZArith List Bool Lia.
From Coq Require Import ZifyBool ZifyNat.
From Verif Require Import Base ModelMath SpecMath LemMerkle.
Open Scope Z_scope.
Ltac Zify.zify_post_hook ::= Z.div_mod_to_equations.

(** *** log2ceil *)
Lemma log2ceil_least n : 1 <= n < 2 ^ 64 ->
  0 <= log2ceil n /\ n <= 2 ^ log2ceil n /\ forall k, 0 <= k -> n <= 2 ^ k -> log2ceil n <= k.
Proof.
  intros Hn. rewrite log2ceil_log2_up by lia. split; [apply Z.log2_up_nonneg|].
  split; [apply log2_up_spec1; lia|]. intros k Hk Hl.
  rewrite <- (Z.log2_up_pow2 k) by lia. apply Z.log2_up_le_mono. exact Hl.
Qed.

(** *** ct_sqrt *)
Lemma sqrt_unique x r : 0 <= r -> r * r <= x < (r + 1) * (r + 1) -> r = Z.sqrt x.
Proof. intros Hr Hx. symmetry. apply Z.sqrt_unique. lia. Qed.

Lemma sqrt_helper_ok fuel : forall x lo hi,
  0 <= x < 2 ^ 64 -> 0 <= lo <= hi -> hi <= 2 ^ 63 -> lo * lo <= x < (hi + 1) * (hi + 1) ->
  hi - lo < 2 ^ Z.of_nat fuel ->
  sqrt_helper fuel x lo hi = Some (Z.sqrt x) /\ sqrt_helper_checked fuel x lo hi = Some (Z.sqrt x).
Proof.
  induction fuel; intros x lo hi Hx Hlo Hhi Hinv Hf; cbn [sqrt_helper sqrt_helper_checked].
  - change (2 ^ Z.of_nat 0) with 1 in Hf. assert (hi = lo) by lia. subst hi. rewrite Z.eqb_refl.
    rewrite (sqrt_unique x lo) by lia. auto.
  - destruct (Z.eqb_spec lo hi) as [->|N]; [rewrite (sqrt_unique x hi) by lia; auto|].
    assert (Hl32 : lo < 2 ^ 32) by nia.
    replace (2 ^ 64 <=? lo + hi + 1) with false by lia.
    replace (u64 (u64 (lo + hi) + 1)) with (lo + hi + 1)
      by (unfold u64; rewrite (Z.mod_small (lo + hi)), Z.mod_small; lia).
    set (mid := (lo + hi + 1) / 2). assert (Hm : lo < mid <= hi) by (unfold mid; lia).
    rewrite Nat2Z.inj_succ, Z.pow_succ_r in Hf by lia.
    assert (Hdiv : (x / mid <? mid) = (x <? mid * mid)).
    { destruct (Z.ltb_spec x (mid * mid)) as [Hc|Hc].
      - apply Z.ltb_lt. apply Z.div_lt_upper_bound; lia.
      - apply Z.ltb_ge. apply Z.div_le_lower_bound; lia. }
    rewrite Hdiv. destruct (Z.ltb_spec x (mid * mid)) as [Hc|Hc].
    + replace (mid - 1 <? 0) with false by lia.
      replace (u64 (mid - 1)) with (mid - 1) by (unfold u64; rewrite Z.mod_small; lia).
      apply IHfuel; try lia; unfold mid; lia.
    + apply IHfuel; try lia; unfold mid; lia.
Qed.
Lemma ct_sqrt_ok fuel x : 0 <= x < 2 ^ 64 -> (64 <= fuel)%nat ->
  ct_sqrt fuel x = Some (Z.sqrt x) /\ ct_sqrt_checked fuel x = Some (Z.sqrt x).
Proof.
  intros Hx Hf. unfold ct_sqrt, ct_sqrt_checked. unfold u64. rewrite Z.mod_small by lia.
  apply sqrt_helper_ok; try lia.
  assert (2 ^ 64 <= 2 ^ Z.of_nat fuel) by (apply Z.pow_le_mono_r; lia). lia.
Qed.

(** *** integer_squareroot *)
Definition M : Z := 2 ^ 32 - 1.
Lemma sqrt_max : Z.sqrt (2 ^ 64 - 1) = M.
Proof. reflexivity. Qed.

Lemma sqrt_up_sound fuel : forall x r r', 0 <= x < 2 ^ 64 -> 0 <= r < 2 ^ 64 ->
  sqrt_up fuel M x r = Some r' -> 0 <= r' < 2 ^ 64 /\ (M <= r' \/ x <= r' * r').
Proof.
  induction fuel; intros x r r' Hx Hr E; cbn [sqrt_up] in E.
  - destruct (_ && _) eqn:C; [discriminate|]. injection E as <-.
    destruct (Z.ltb_spec r M); [|lia]. unfold u64, M in *. rewrite Z.mod_small in C by nia. lia.
  - destruct (_ && _) eqn:C.
    + apply IHfuel in E; auto. unfold u64. unfold M in C. rewrite Z.mod_small; lia.
    + injection E as <-.
      destruct (Z.ltb_spec r M); [|lia]. unfold u64, M in *. rewrite Z.mod_small in C by nia. lia.
Qed.
Lemma sqrt_up_total fuel : forall x r, 0 <= r < 2 ^ 64 -> M - r <= Z.of_nat fuel ->
  exists r', sqrt_up fuel M x r = Some r'.
Proof.
  induction fuel; intros x r Hr Hf; cbn [sqrt_up].
  - replace (r <? M) with false by lia. cbn [andb]. eauto.
  - destruct (_ && _) eqn:C; [|eauto]. apply IHfuel; unfold u64, M in *; rewrite Z.mod_small; lia.
Qed.
Lemma sqrt_down_sound fuel : forall x r r', 0 <= x < 2 ^ 64 -> 0 <= r < 2 ^ 64 ->
  (M <= r \/ x <= r * r) ->
  sqrt_down fuel M x r = Some r' -> r' = Z.sqrt x.
Proof.
  assert (B : forall x r, 0 <= x < 2 ^ 64 -> 0 <= r < 2 ^ 64 -> (x < (r + 1) * (r + 1)) ->
    (r >? M) || (u64 (r * r) >? x) = false -> r = Z.sqrt x).
  { intros x r Hx Hr Hi C. apply sqrt_unique; [lia|]. assert (r <= M) by lia. unfold M in *.
    unfold u64 in C. rewrite Z.mod_small in C by nia. nia. }
  assert (G : forall fuel x r r', 0 <= x < 2 ^ 64 -> 0 <= r < 2 ^ 64 -> x < (r + 1) * (r + 1) ->
    sqrt_down fuel M x r = Some r' -> r' = Z.sqrt x).
  { clear fuel. induction fuel; intros x r r' Hx Hr Hi E; cbn [sqrt_down] in E;
      destruct (_ || _) eqn:C; try discriminate.
    - injection E as <-. now apply B.
    - assert (Hr0 : 0 < r).
      { destruct (Z.eq_dec r 0) as [->|]; [|lia]. exfalso. unfold M, u64 in C. cbn in C. lia. }
      assert (Hrr : x < r * r).
      { destruct (Z.gtb_spec r M); [unfold M in *; nia|]. unfold M in *.
        unfold u64 in C. rewrite Z.mod_small in C by nia. lia. }
      apply IHfuel in E; auto; unfold u64; rewrite Z.mod_small; try lia.
    - injection E as <-. now apply B. }
  intros x r r' Hx Hr Hc. apply G; auto. unfold M in *. nia.
Qed.
Lemma sqrt_down_total fuel : forall x r, 0 <= x < 2 ^ 64 -> 0 <= r < 2 ^ 64 -> r <= Z.of_nat fuel ->
  exists r', sqrt_down fuel M x r = Some r'.
Proof.
  induction fuel; intros x r Hx Hr Hf; cbn [sqrt_down]; destruct (_ || _) eqn:C; eauto.
  - assert (r = 0) by lia. subst. exfalso. unfold M, u64 in C. cbn in C. lia.
  - assert (r <> 0). { intros ->. unfold M, u64 in C. cbn in C. lia. }
    apply IHfuel; auto; unfold u64; rewrite Z.mod_small; lia.
Qed.

Lemma isqrt_total guess x : 0 <= x < 2 ^ 64 -> 0 <= guess < 2 ^ 64 ->
  exists fuel, integer_squareroot fuel guess x = Some (Z.sqrt x).
Proof.
  intros Hx Hg. exists (Z.to_nat (2 ^ 64)).
  assert (Hf : Z.of_nat (Z.to_nat (2 ^ 64)) = 2 ^ 64) by lia.
  set (fuel := Z.to_nat (2 ^ 64)) in *. clearbody fuel. unfold integer_squareroot.
  destruct (ct_sqrt_ok fuel (2 ^ 64 - 1) ltac:(lia) ltac:(lia)) as [-> _]. rewrite sqrt_max.
  destruct (sqrt_up_total fuel x guess Hg ltac:(unfold M; lia)) as [r Er]. rewrite Er.
  destruct (sqrt_up_sound fuel x guess r Hx Hg Er) as [Hr Hc].
  destruct (sqrt_down_total fuel x r Hx Hr ltac:(lia)) as [r' Er'].
  rewrite Er'. f_equal. exact (sqrt_down_sound fuel x r r' Hx Hr Hc Er').
Qed.
Lemma sqrt_helper_mono fuel : forall x lo hi r fuel', (fuel <= fuel')%nat ->
  sqrt_helper fuel x lo hi = Some r -> sqrt_helper fuel' x lo hi = Some r.
Proof.
  induction fuel; intros x lo hi r fuel' Hf E; destruct fuel'; cbn [sqrt_helper] in *; try lia;
    destruct (lo =? hi); auto; try discriminate.
  destruct (_ <? _); apply IHfuel; auto; lia.
Qed.
Lemma isqrt_sound fuel guess x r : 0 <= x < 2 ^ 64 -> 0 <= guess < 2 ^ 64 ->
  integer_squareroot fuel guess x = Some r -> r = Z.sqrt x.
Proof.
  intros Hx Hg E. unfold integer_squareroot in E.
  destruct (ct_sqrt fuel (2 ^ 64 - 1)) as [m|] eqn:Em; [|discriminate].
  assert (m = M).
  { unfold ct_sqrt in Em. apply (sqrt_helper_mono _ _ _ _ _ (fuel + 64)) in Em; [|lia].
    destruct (ct_sqrt_ok (fuel + 64) (2 ^ 64 - 1) ltac:(lia) ltac:(lia)) as [E1 _].
    unfold ct_sqrt in E1. rewrite E1, sqrt_max in Em. congruence. }
  subst m. destruct (sqrt_up fuel M x guess) as [r1|] eqn:E1; [|discriminate].
  destruct (sqrt_up_sound fuel x guess r1 Hx Hg E1) as [Hr Hc].
  exact (sqrt_down_sound fuel x r1 r Hx Hr Hc E).
Qed.

(** ** In the form of ThmMath *)
Lemma log2ceil_spec n : 0 <= n < 2 ^ 64 ->
  (n = 0 -> log2ceil n = 0) /\
  (1 <= n -> 0 <= log2ceil n /\ n <= 2 ^ log2ceil n /\
             forall k, 0 <= k -> n <= 2 ^ k -> log2ceil n <= k).
Proof. intros Hn. split; [intros ->; reflexivity|]. intros H1. apply log2ceil_least. lia. Qed.

Lemma sqrt_bounds x : 0 <= x -> 0 <= Z.sqrt x /\ Z.sqrt x * Z.sqrt x <= x < (Z.sqrt x + 1) * (Z.sqrt x + 1).
Proof. intros Hx. split; [apply Z.sqrt_nonneg|]. pose proof (Z.sqrt_spec x Hx) as S. unfold Z.succ in S. exact S. Qed.

Lemma isqrt_spec guess x : 0 <= x < 2 ^ 64 -> 0 <= guess < 2 ^ 64 ->
  exists r, (exists fuel, integer_squareroot fuel guess x = Some r) /\
    (forall fuel r', integer_squareroot fuel guess x = Some r' -> r' = r) /\
    0 <= r /\ r * r <= x < (r + 1) * (r + 1).
Proof.
  intros Hx Hg. exists (Z.sqrt x). split; [apply isqrt_total; auto|].
  split; [intros fuel r'; apply isqrt_sound; auto|]. apply sqrt_bounds. lia.
Qed.

Lemma ct_sqrt_spec fuel x : 0 <= x < 2 ^ 64 -> (64 <= fuel)%nat ->
  exists r, ct_sqrt fuel x = Some r /\ ct_sqrt_checked fuel x = Some r /\
    0 <= r /\ r * r <= x < (r + 1) * (r + 1).
Proof.
  intros Hx Hf. exists (Z.sqrt x). destruct (ct_sqrt_ok fuel x Hx Hf) as [-> ->].
  split; [reflexivity|]. split; [reflexivity|]. apply sqrt_bounds. lia.
Qed.

(** The number of iterations *)
Lemma sqrt_up_near fuel : forall x r, 0 <= x < 2 ^ 64 -> 0 <= r < 2 ^ 64 -> Z.sqrt x + 1 - r <= Z.of_nat fuel ->
  exists r', sqrt_up fuel M x r = Some r' /\ r <= r' <= Z.max r (Z.sqrt x + 1).
Proof.
  assert (G : forall x r, 0 <= x -> 0 <= r < M -> u64 (r * r) < x -> r <= Z.sqrt x).
  { intros x r Hx Hr C. unfold u64, M in *. rewrite Z.mod_small in C by nia. apply Z.sqrt_le_square; lia. }
  induction fuel; intros x r Hx Hr Hf; cbn [sqrt_up]; (destruct (_ && _) eqn:C; [|exists r; split; [reflexivity|lia]]);
    pose proof (G x r ltac:(lia) ltac:(lia) ltac:(lia)).
  - exfalso. lia.
  - unfold M in C. replace (u64 (r + 1)) with (r + 1) by (unfold u64; rewrite Z.mod_small; lia).
    destruct (IHfuel x (r + 1) Hx ltac:(lia) ltac:(lia)) as (r' & E & B). exists r'. split; [exact E|lia].
Qed.
Lemma sqrt_down_near fuel : forall x r, 0 <= x < 2 ^ 64 -> 0 <= r < 2 ^ 64 -> r - Z.sqrt x <= Z.of_nat fuel ->
  exists r', sqrt_down fuel M x r = Some r'.
Proof.
  assert (G : forall x r, 0 <= x < 2 ^ 64 -> 0 <= r -> (r >? M) || (u64 (r * r) >? x) = true -> Z.sqrt x < r).
  { intros x r Hx Hr C. apply Z.sqrt_lt_square; [lia|lia|]. destruct (Z.gtb_spec r M); [unfold M in *; nia|].
    unfold u64, M in *. rewrite Z.mod_small in C by nia. lia. }
  induction fuel; intros x r Hx Hr Hf; cbn [sqrt_down]; (destruct (_ || _) eqn:C; [|eauto]);
    pose proof (G x r Hx ltac:(lia) C); pose proof (Z.sqrt_nonneg x).
  - exfalso. lia.
  - replace (u64 (r - 1)) with (r - 1) by (unfold u64; rewrite Z.mod_small; lia). apply IHfuel; lia.
Qed.
Lemma isqrt_iterations guess x r n : 0 <= x < 2 ^ 64 -> 0 <= guess < 2 ^ 64 ->
  0 <= r -> r * r <= x < (r + 1) * (r + 1) -> Z.abs (guess - r) < Z.of_nat n ->
  (exists r1, sqrt_up n (2 ^ 32 - 1) x guess = Some r1 /\ sqrt_down n (2 ^ 32 - 1) x r1 = Some r) /\
  ((64 <= n)%nat -> integer_squareroot n guess x = Some r).
Proof.
  intros Hx Hg Hr Hs Hn. apply sqrt_unique in Hs; [|exact Hr]. subst r. change (2 ^ 32 - 1) with M.
  assert (L : Z.sqrt x < 2 ^ 32) by (apply Z.sqrt_lt_square; lia).
  destruct (sqrt_up_near n x guess Hx Hg ltac:(lia)) as (r1 & E1 & B1).
  destruct (sqrt_down_near n x r1 Hx ltac:(lia) ltac:(lia)) as [r2 E2].
  destruct (sqrt_up_sound n x guess r1 Hx Hg E1) as [B2 C].
  assert (r2 = Z.sqrt x) by exact (sqrt_down_sound n x r1 r2 Hx B2 C E2). subst r2.
  split; [exists r1; split; assumption|]. intros F. unfold integer_squareroot.
  destruct (ct_sqrt_ok n (2 ^ 64 - 1) ltac:(lia) F) as [-> _]. rewrite sqrt_max, E1. exact E2.
Qed.
