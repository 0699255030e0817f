(** Soundness of the symbolic vector operations of SymX86.v. *)
From Coq Require Import ZArith String List Bool Lia ZifyBool.
From Verif Require Import Base ModelX86.
From Verif Require Import SymWord LemSymWord SymX86.
Import ListNotations.
Open Scope list_scope.
Open Scope Z_scope.
Ltac Zify.zify_post_hook ::= Z.div_mod_to_equations.

Definition vrel (env : positive -> Z) (n : nat) (l : list sword) (vs : list Z) : Prop :=
  length l = n /\ Forall2 (wrel env) l vs.

Ltac inv_vrel :=
  repeat match goal with
  | H : vrel _ _ _ _ |- _ => let L := fresh in let F := fresh in destruct H as [L F]
  end;
  repeat match goal with
  | H : length ?l = S _ |- _ => is_var l; destruct l; [discriminate H|]; cbn [length] in H; apply eq_add_S in H
  | H : length ?l = 0%nat |- _ => is_var l; destruct l; [clear H|discriminate H]
  | H : Forall2 _ (_ :: _) _ |- _ => inversion H; subst; clear H
  | H : Forall2 _ [] _ |- _ => inversion H; subst; clear H
  end.

Definition vsound1 (f : tbl -> list sword -> tbl * list sword) (g : list Z -> list Z) : Prop :=
  forall T a T' c, f T a = (T', c) ->
  ext T T' /\ forall env va, Sat env T' -> vrel env 4 a va -> vrel env 4 c (g va).
Definition vsound2 (f : tbl -> list sword -> list sword -> tbl * list sword) (g : list Z -> list Z -> list Z) : Prop :=
  forall T a b T' c, f T a b = (T', c) ->
  ext T T' /\ forall env va vb, Sat env T' -> vrel env 4 a va -> vrel env 4 b vb -> vrel env 4 c (g va vb).

Lemma smap2_sound f g : sound2 f g -> forall a b T T' c, smap2 f T a b = (T', c) ->
  ext T T' /\ forall env va vb n, Sat env T' -> vrel env n a va -> vrel env n b vb ->
  vrel env n c (map2 g va vb).
Proof.
  intros F. induction a as [|x a IH]; intros b T T' c E.
  - cbn in E. apply pair_equal_spec in E as [<- <-]. split; [apply ext_refl|].
    intros env va vb n S [L A] _. cbn in L. subst n. inversion A; subst. split; [reflexivity|constructor].
  - destruct b as [|y b]; cbn [smap2] in E.
    + apply pair_equal_spec in E as [<- <-]. split; [apply ext_refl|].
      intros env va vb n S [L A] [M B]. cbn in L, M. subst n. discriminate.
    + stp F E. stp IH E. apply pair_equal_spec in E as [<- <-]. split; [extt|].
      intros env va vb n S [L A] [M B]. destruct n as [|n]; [discriminate|].
      inversion A; subst. inversion B; subst. unfold map2. cbn [combine map fst snd].
      injection L as L. injection M as M.
      match goal with H : forall env va vb n, _ |- _ =>
        edestruct (H env) as [Q1 Q2]; [exact S|split; [exact L|eassumption]|split; [exact M|eassumption]|] end.
      split; [cbn; congruence|]. constructor; [wr|exact Q2].
Qed.
Lemma smap_sound f g : sound1 f g -> forall a T T' c, smap f T a = (T', c) ->
  ext T T' /\ forall env va n, Sat env T' -> vrel env n a va -> vrel env n c (map g va).
Proof.
  intros F. induction a as [|x a IH]; intros T T' c E; cbn [smap] in E.
  - apply pair_equal_spec in E as [<- <-]. split; [apply ext_refl|].
    intros env va n S [L A]. inversion A. subst va. split; [exact L|constructor].
  - stp F E. stp IH E. apply pair_equal_spec in E as [<- <-]. split; [extt|].
    intros env va n S [L A]. destruct n as [|n]; [discriminate|]. inversion A; subst. injection L as L.
    match goal with H : forall env va n, _ |- _ =>
      edestruct (H env) as [Q1 Q2]; [exact S|split; [exact L|eassumption]|] end.
    split; [cbn; congruence|]. cbn [map]. constructor; [wr|exact Q2].
Qed.

Lemma le_val_bytes4 v : le_val [byte_of 0 v; byte_of 1 v; byte_of 2 v; byte_of 3 v] = w32 v.
Proof.
  cbn [le_val]. unfold byte_of, w32. change (2 ^ (8 * 0)) with 1. change (2 ^ (8 * 1)) with 256.
  change (2 ^ (8 * 2)) with 65536. change (2 ^ (8 * 3)) with 16777216. change (2 ^ 32) with 4294967296.
  lia.
Qed.
Lemma to_bytes_cons v l : to_bytes (v :: l) = byte_of 0 v :: byte_of 1 v :: byte_of 2 v :: byte_of 3 v :: to_bytes l.
Proof. unfold to_bytes. cbn [flat_map]. rewrite le_bytes4. reflexivity. Qed.
Lemma byte_of_mod s v : 0 <= s < 4 -> byte_of s (v mod 2 ^ 32) = byte_of s v.
Proof.
  intros S. apply Z.bits_inj'. intros i I. destruct (Z.ltb_spec i 8) as [L|L].
  - rewrite !byte_of_bit by lia. apply Z.mod_pow2_bits_low. lia.
  - rewrite !byte_high by (try apply byte_of_range; lia). reflexivity.
Qed.

(** *** PSHUFB *)
Lemma shuf_byte_brel env a va m : vrel env 4 a va -> 0 <= m < 256 ->
  brel env (shuf_byte a m) (if 128 <=? m then 0 else nth (Z.to_nat (m mod 16)) (to_bytes va) 0).
Proof.
  intros V M. unfold shuf_byte. destruct (128 <=? m); [reflexivity|].
  change 15 with (Z.ones 4). change 3 with (Z.ones 2).
  rewrite !Z.land_ones, Z.shiftr_div_pow2 by lia. change (2 ^ 4) with 16. change (2 ^ 2) with 4.
  cbn [brel]. split; [lia|].
  exists (nth (Z.to_nat (m mod 16 / 4)) va 0). split; [apply wrel_nth, V|].
  inv_vrel. rewrite !to_bytes_cons.
  assert (C : exists q r, (q < 4)%nat /\ (r < 4)%nat /\ m mod 16 = 4 * Z.of_nat q + Z.of_nat r).
  { exists (Z.to_nat (m mod 16 / 4)), (Z.to_nat (m mod 4)). repeat split; lia. }
  destruct C as (q & r & Q & R & E). replace (m mod 4) with (Z.of_nat r) by lia. rewrite E.
  do 4 (destruct q as [|q]; [do 4 (destruct r as [|r]; [reflexivity|]); lia|]). lia.
Qed.
Lemma sshuf_sound env a va m T T' c : sshuf a T m = (T', c) ->
  ext T T' /\ (Sat env T' -> vrel env 4 a va ->
  wrel env c (le_val (map (fun m => if 128 <=? m then 0 else nth (Z.to_nat (m mod 16)) (to_bytes va) 0)
                          (le_bytes 4 m)))).
Proof.
  intros E. unfold sshuf in E. rewrite le_bytes4 in *.
  apply sassemble_sound in E as [X E]; [|reflexivity]. split; [exact X|].
  intros S V. apply E; [exact S|]. cbn [map].
  repeat (constructor; [apply shuf_byte_brel; [exact V|apply byte_of_range]|]). constructor.
Qed.
Lemma consts_of_sound env : forall l cs vs, consts_of l = Some cs -> Forall2 (wrel env) l vs ->
  vs = map (fun c => c mod 2 ^ 32) cs /\ length cs = length l.
Proof.
  induction l as [|w l IH]; intros cs vs E F; cbn [consts_of] in E.
  - injection E as <-. inversion F; subst. auto.
  - destruct (const_of w) as [c|] eqn:C; [|discriminate].
    destruct (consts_of l) as [cs'|]; [|discriminate]. injection E as <-.
    inversion F; subst. destruct (IH cs' l' eq_refl ltac:(assumption)) as [-> L].
    rewrite (const_of_sound env w c y C) by assumption. cbn [map length]. auto.
Qed.
Lemma map_const_rel env {A} (l : list A) : forall vs, length l = length vs ->
  Forall2 (wrel env) (map (fun _ => SX) l) vs.
Proof.
  induction l as [|x l IH]; intros [|v vs] L; try discriminate; cbn [map]; constructor.
  - exact I.
  - apply IH. injection L; auto.
Qed.
Lemma pshufb_length a m : length (pshufb a m) = 4%nat.
Proof. reflexivity. Qed.
Lemma spshufb_sound : vsound2 spshufb pshufb.
Proof.
  intros T a b T' c E. unfold spshufb in E.
  destruct (consts_of b) as [ms|] eqn:C.
  - destruct ms as [|m0 [|m1 [|m2 [|m3 [|m4 ms]]]]];
      try (assert (X : ext T T' /\ length b <> 4%nat);
           [|destruct X as [X N]; split; [exact X|]; intros env va vb S A B; destruct B as [L _]; congruence];
           assert (LB : forall l cs, consts_of l = Some cs -> length l = length cs) by
             (clear; induction l as [|w l IH]; intros cs E; cbn [consts_of] in E; [injection E as <-; reflexivity|];
              destruct (const_of w); [|discriminate]; destruct (consts_of l); [|discriminate];
              injection E as <-; cbn; f_equal; apply IH; reflexivity);
           apply LB in C; split; [|rewrite C; cbn; lia]; clear C LB).
    + cbn in E. apply pair_equal_spec in E as [<- _]. apply ext_refl.
    + cbn [sshufs] in E. stp (sshuf_sound (fun _ => 0) a []) E. apply pair_equal_spec in E as [<- _]. extt.
    + cbn [sshufs] in E.
      destruct (sshuf a T m0) eqn:E0. destruct (sshuf a t m1) eqn:E1.
      apply (sshuf_sound (fun _ => 0) a []) in E0 as [? _]. apply (sshuf_sound (fun _ => 0) a []) in E1 as [? _].
      apply pair_equal_spec in E as [<- _]. extt.
    + cbn [sshufs] in E.
      destruct (sshuf a T m0) eqn:E0. destruct (sshuf a t m1) eqn:E1. destruct (sshuf a t0 m2) eqn:E2.
      apply (sshuf_sound (fun _ => 0) a []) in E0 as [? _]. apply (sshuf_sound (fun _ => 0) a []) in E1 as [? _].
      apply (sshuf_sound (fun _ => 0) a []) in E2 as [? _].
      apply pair_equal_spec in E as [<- _]. extt.
    + cbn [sshufs] in E.
      destruct (sshuf a T m0) as [t0 z0] eqn:E0. destruct (sshuf a t0 m1) as [t1 z1] eqn:E1.
      destruct (sshuf a t1 m2) as [t2 z2] eqn:E2. destruct (sshuf a t2 m3) as [t3 z3] eqn:E3.
      apply pair_equal_spec in E as [<- <-].
      assert (Q : forall env va, Sat env t3 -> vrel env 4 a va -> ext T t3 /\ vrel env 4 [z0; z1; z2; z3]
         (map (fun m => le_val (map (fun m => if 128 <=? m then 0 else nth (Z.to_nat (m mod 16)) (to_bytes va) 0)
                          (le_bytes 4 m))) [m0; m1; m2; m3])).
      { intros env va S V.
        apply (sshuf_sound env a va) in E0 as [? ?]. apply (sshuf_sound env a va) in E1 as [? ?].
        apply (sshuf_sound env a va) in E2 as [? ?]. apply (sshuf_sound env a va) in E3 as [? ?].
        split; [extt|]. split; [reflexivity|]. cbn [map].
        repeat (constructor; [match goal with H : _ -> _ -> wrel _ ?z _ |- wrel _ ?z _ => apply H; [satt|exact V] end|]).
        constructor. }
      split.
      { apply (sshuf_sound (fun _ => 0) a []) in E0 as [? _]. apply (sshuf_sound (fun _ => 0) a []) in E1 as [? _].
        apply (sshuf_sound (fun _ => 0) a []) in E2 as [? _]. apply (sshuf_sound (fun _ => 0) a []) in E3 as [? _].
        extt. }
      intros env va vb S A [LB B].
      destruct (consts_of_sound env b _ vb C B) as [-> _].
      destruct (Q env va S A) as [_ [_ R]]. split; [reflexivity|].
      assert (EQ : pshufb va (map (fun c => c mod 2 ^ 32) [m0; m1; m2; m3]) =
        map (fun m => le_val (map (fun m => if 128 <=? m then 0 else nth (Z.to_nat (m mod 16)) (to_bytes va) 0)
                          (le_bytes 4 m))) [m0; m1; m2; m3]); [|rewrite EQ; exact R].
      unfold pshufb. cbn [map]. rewrite !to_bytes_cons, !byte_of_mod by lia. rewrite !le_bytes4.
      cbn [to_bytes flat_map map of_bytes firstn skipn]. reflexivity.
    + cbn [sshufs] in E.
      assert (QQ : forall l T T' c, sshufs a T l = (T', c) -> ext T T').
      { induction l as [|m l IH]; intros X X' c' E'; cbn [sshufs] in E'.
        - apply pair_equal_spec in E' as [<- _]. apply ext_refl.
        - destruct (sshuf a X m) eqn:E0. destruct (sshufs a t l) eqn:E1. apply IH in E1.
          apply (sshuf_sound (fun _ => 0) a []) in E0 as [? _].
          apply pair_equal_spec in E' as [<- _]. extt. }
      exact (QQ (m0 :: m1 :: m2 :: m3 :: m4 :: ms) T T' c E).
  - apply pair_equal_spec in E as [<- <-]. split; [apply ext_refl|].
    intros env va vb S A [LB B]. split; [rewrite map_length; exact LB|].
    apply map_const_rel. rewrite LB. reflexivity.
Qed.

(** *** Shuffles of whole doublewords *)
Lemma palignr_sound i : (Z.land i 3 =? 0) && (0 <=? i) && (i <=? 16) = true ->
  forall env a b va vb, vrel env 4 a va -> vrel env 4 b vb ->
  vrel env 4 (firstn 4 (skipn (Z.to_nat (Z.shiftr i 2)) (b ++ a))) (palignr i va vb).
Proof.
  intros C env a b va vb A B.
  change 3 with (Z.ones 2) in C. rewrite Z.land_ones in C by lia. change (2 ^ 2) with 4 in C.
  rewrite Z.shiftr_div_pow2 by lia. change (2 ^ 2) with 4.
  assert (D : exists q, (q <= 4)%nat /\ i = 4 * Z.of_nat q) by (exists (Z.to_nat (i / 4)); lia).
  destruct D as (q & Q & ->). replace (Z.to_nat (4 * Z.of_nat q / 4)) with q by lia.
  clear C. unfold palignr. replace (Z.to_nat (4 * Z.of_nat q)) with (4 * q)%nat by lia. inv_vrel. rewrite !to_bytes_cons. change (to_bytes []) with (@nil Z).
  do 5 (destruct q as [|q];
    [cbn [app skipn Nat.mul Nat.add firstn of_bytes];
     split; [reflexivity|]; rewrite !le_val_bytes4; repeat (constructor; [apply wrel_w32; assumption|]); constructor|]).
  lia.
Qed.
Lemma shufps_sound i env a b va vb : vrel env 4 a va -> vrel env 4 b vb ->
  vrel env 4 [wnth (sel2 i 0) a; wnth (sel2 i 1) a; wnth (sel2 i 2) b; wnth (sel2 i 3) b] (shufps i va vb).
Proof.
  intros [_ A] [_ B]. split; [reflexivity|]. unfold shufps, wnth.
  repeat (constructor; [apply wrel_nth; assumption|]). constructor.
Qed.
Lemma pshufd_sound i env a va : vrel env 4 a va ->
  vrel env 4 [wnth (sel2 i 0) a; wnth (sel2 i 1) a; wnth (sel2 i 2) a; wnth (sel2 i 3) a]
    [nth (sel2 i 0) va 0; nth (sel2 i 1) va 0; nth (sel2 i 2) va 0; nth (sel2 i 3) va 0].
Proof.
  intros [_ A]. split; [reflexivity|]. unfold wnth.
  repeat (constructor; [apply wrel_nth; assumption|]). constructor.
Qed.
Lemma pblendw_sound i env a b va vb : vrel env 4 a va -> vrel env 4 b vb ->
  vrel env 4 (spblendw i a b) (pblendw i va vb).
Proof.
  intros A B. inv_vrel. unfold spblendw, pblendw. rewrite !to_bytes_cons. change (to_bytes []) with (@nil Z).
  split; [reflexivity|].
  cbn -[Z.testbit byte_of le_val wrel].
  repeat (constructor; [
    match goal with |- wrel _ (if Bool.eqb ?x ?y then _ else _) _ => destruct x, y; cbn [Bool.eqb]; try exact Logic.I end;
    rewrite le_val_bytes4; apply wrel_w32; assumption|]).
  constructor.
Qed.

(** *** SHA extensions *)
Lemma smsg1_sound : sound2 smsg1 (fun x y => add32 x (xsigma0 y)).
Proof.
  intros T a b T' c E. unfold smsg1 in E. stp ssigma0_sound E. fin sadd_sound E.
  split; [extt|]. intros env va vb S A B. wr.
Qed.
Lemma smsg2_sound : sound2 smsg2 (fun x y => add32 x (xsigma1 y)).
Proof.
  intros T a b T' c E. unfold smsg2 in E. stp ssigma1_sound E. fin sadd_sound E.
  split; [extt|]. intros env va vb S A B. wr.
Qed.
Ltac wn := wr; try (apply wrel_nth; assumption).
Lemma ssha256msg1_sound : vsound2 ssha256msg1 sha256msg1.
Proof.
  intros T a b T' c E. unfold ssha256msg1 in E.
  stp smsg1_sound E. stp smsg1_sound E. stp smsg1_sound E. stp smsg1_sound E.
  apply pair_equal_spec in E as [<- <-]. split; [extt|].
  intros env va vb S [_ A] [_ B]. split; [reflexivity|]. unfold sha256msg1.
  repeat (constructor; [wn|]). constructor.
Qed.
Lemma ssha256msg2_sound : vsound2 ssha256msg2 sha256msg2.
Proof.
  intros T a b T' c E. unfold ssha256msg2 in E.
  stp smsg2_sound E. stp smsg2_sound E. stp smsg2_sound E. stp smsg2_sound E.
  apply pair_equal_spec in E as [<- <-]. split; [extt|].
  intros env va vb S [_ A] [_ B]. split; [reflexivity|]. unfold sha256msg2. cbv zeta.
  repeat (constructor; [wn|]). constructor.
Qed.
Definition rnd_list (s : list Z) (wk : Z) : list Z :=
  match s with
  | [a; b; c; d; e; f; g; h] =>
      let '(a', b', c', d', e', f', g', h') := rnd (a, b, c, d, e, f, g, h) wk in
      [a'; b'; c'; d'; e'; f'; g'; h']
  | _ => []
  end.
Lemma srnd_sound T s wk T' s' : srnd T s wk = (T', s') ->
  ext T T' /\ forall env vs v, Sat env T' -> Forall2 (wrel env) s vs -> wrel env wk v ->
  Forall2 (wrel env) s' (rnd_list vs v).
Proof.
  intros E.
  destruct s as [|a [|b [|c [|d [|e [|f [|g [|h [|x s]]]]]]]]]; cbn [srnd] in E;
    try (apply pair_equal_spec in E as [<- <-]; split; [apply ext_refl|];
         intros env vs v S F V;
         repeat match goal with H : Forall2 _ (_ :: _) _ |- _ => inversion H; subst; clear H end;
         match goal with H : Forall2 _ [] _ |- _ => inversion H; subst end; constructor).
  - stp sCh_sound E. stp sSigma1_sound E. stp sadd_sound E. stp sadd_sound E. stp sadd_sound E.
    stp sMaj_sound E. stp sadd_sound E. stp sSigma0_sound E. stp sadd_sound E. stp sadd_sound E.
    apply pair_equal_spec in E as [<- <-]. split; [extt|].
    intros env vs v S F V.
    destruct vs as [|va [|vb [|vc [|vd [|ve [|vf [|vg [|vh [|y vs]]]]]]]]];
      try (apply F2_length in F; discriminate F).
    repeat match goal with H : Forall2 _ (_ :: _) _ |- _ => inversion H; subst; clear H end.
    cbn [rnd_list rnd]. cbv zeta.
    repeat (constructor; [try assumption|]); [| |constructor]; wr.
  - apply pair_equal_spec in E as [<- <-]. split; [apply ext_refl|].
    intros env vs v S F V.
    do 9 (destruct vs as [|? vs]; [apply F2_length in F; discriminate F|]). cbn [rnd_list]. constructor.
Qed.
Lemma ssha256rnds2_sound T a b x T' c : ssha256rnds2 T a b x = (T', c) ->
  ext T T' /\ forall env va vb vx, Sat env T' -> Forall2 (wrel env) a va -> Forall2 (wrel env) b vb ->
  Forall2 (wrel env) x vx -> vrel env 4 c (sha256rnds2 va vb vx).
Proof.
  intros E. unfold ssha256rnds2 in E. cbv zeta in E. stp srnd_sound E. stp srnd_sound E.
  apply pair_equal_spec in E as [<- <-]. split; [extt|].
  intros env va vb vx S A B X.
  unfold sha256rnds2. cbv zeta.
  set (s := [nth 3 vb 0; nth 2 vb 0; nth 3 va 0; nth 2 va 0; nth 1 vb 0; nth 0 vb 0; nth 1 va 0; nth 0 va 0]).
  assert (F : Forall2 (wrel env) l0 (rnd_list (rnd_list s (nth 0 vx 0)) (nth 1 vx 0))).
  { match goal with H : forall env vs v, _ |- Forall2 _ l0 _ => apply H end; [satt| |apply wrel_nth; exact X].
    match goal with H : forall env vs v, _ |- Forall2 _ l _ => apply H end; [satt| |apply wrel_nth; exact X].
    unfold s. repeat (constructor; [apply wrel_nth; assumption|]). constructor. }
  replace (let '(a0, b0, _, _, e, f, _, _) := _ in [f; e; b0; a0])
    with (let L := rnd_list (rnd_list s (nth 0 vx 0)) (nth 1 vx 0) in [nth 5 L 0; nth 4 L 0; nth 1 L 0; nth 0 L 0])
    by reflexivity.
  cbv zeta. split; [reflexivity|].
  unfold wnth.
  constructor; [exact (wrel_nth env _ _ 5 F)|].
  constructor; [exact (wrel_nth env _ _ 4 F)|].
  constructor; [exact (wrel_nth env _ _ 1 F)|].
  constructor; [exact (wrel_nth env _ _ 0 F)|]. constructor.
Qed.

(** *** One lane *)
Lemma slane_op_sound op : vsound2 (slane_op op) (lane_op op).
Proof.
  intros T a b T' c E.
  assert (Q : forall f g, sound2 f g -> smap2 f T a b = (T', c) ->
    ext T T' /\ forall env va vb, Sat env T' -> vrel env 4 a va -> vrel env 4 b vb -> vrel env 4 c (map2 g va vb)).
  { intros f g F E'. apply (smap2_sound f g F) in E' as [X E']. split; [exact X|]. intros; apply E'; assumption. }
  assert (R : forall x g, (T, x) = (T', c) -> (forall env va vb, vrel env 4 a va -> vrel env 4 b vb -> vrel env 4 x (g va vb)) ->
    ext T T' /\ forall env va vb, Sat env T' -> vrel env 4 a va -> vrel env 4 b vb -> vrel env 4 c (g va vb)).
  { intros x g E' F. apply pair_equal_spec in E' as [<- <-]. split; [apply ext_refl|]. intros; apply F; assumption. }
  destruct op; cbn [slane_op lane_op] in *.
  - exact (Q _ _ sadd_sound E).
  - exact (Q _ _ sxor_sound E).
  - exact (Q _ _ sand_sound E).
  - exact (Q _ _ sor_sound E).
  - exact (spshufb_sound T a b T' c E).
  - apply (R _ (palignr i) E). intros env va vb A B.
    destruct ((Z.land i 3 =? 0) && (0 <=? i) && (i <=? 16)) eqn:C; [apply palignr_sound; assumption|].
    destruct A as [L A]. split; [rewrite map_length; exact L|]. apply map_const_rel. rewrite L. reflexivity.
  - apply (R _ (shufps i) E). intros; apply shufps_sound; assumption.
  - apply (R _ (pblendw i) E). intros; apply pblendw_sound; assumption.
  - exact (ssha256msg1_sound T a b T' c E).
  - exact (ssha256msg2_sound T a b T' c E).
Qed.
Lemma psrlq_lo l h i : 0 <= l < 2 ^ 32 -> 0 <= h < 2 ^ 32 -> 0 < i < 32 ->
  w32 (Z.shiftr (l + 2 ^ 32 * h) i) = Z.lxor (shr32 l i) (shl32 h (32 - i)).
Proof.
  intros L H I. apply word_ext.
  - unfold w32. apply Z.mod_pos_bound. lia.
  - apply (bitwise_range _ (shr32 l i) (shl32 h (32 - i))).
    + intros k K A B. rewrite Z.lxor_spec, A, B. reflexivity.
    + apply Z.lxor_nonneg. pose proof (shr32_range l i). pose proof (shl32_range h (32 - i)). lia.
    + apply shr32_range; lia.
    + apply shl32_range.
  - intros k K. unfold w32. rewrite Z.mod_pow2_bits_low, Z.shiftr_spec by lia.
    rewrite Z.lxor_spec, shr32_bit, shl32_bit by lia.
    destruct (k + i <? 32) eqn:C; cbn [andb].
    + replace (32 - i <=? k) with false by lia. cbn [andb]. rewrite xorb_false_r.
      rewrite <- (Z.mod_pow2_bits_low _ 32) by lia. f_equal. rewrite Z.mul_comm, Z.mod_add by lia.
      apply Z.mod_small. exact L.
    + replace (32 - i <=? k) with true by lia. cbn [andb xorb].
      replace (k + i) with ((k - (32 - i)) + 32) by lia. rewrite <- Z.div_pow2_bits by lia.
      rewrite Z.mul_comm, Z.div_add, Z.div_small by lia. rewrite Z.add_0_l.
      destruct (Z.testbit _ _); reflexivity.
Qed.
Lemma psrlq_hi l h i : 0 <= l < 2 ^ 32 -> 0 <= h < 2 ^ 32 -> 0 < i < 32 ->
  w32 (Z.shiftr (Z.shiftr (l + 2 ^ 32 * h) i) 32) = shr32 h i.
Proof.
  intros L H I. rewrite Z.shiftr_shiftr, (Z.add_comm i 32), <- Z.shiftr_shiftr by lia.
  rewrite (Z.shiftr_div_pow2 _ 32) by lia. rewrite Z.mul_comm, Z.div_add, Z.div_small, Z.add_0_l by lia.
  apply Z.mod_small. apply (shr32_range h i); lia.
Qed.
Lemma spsrlq_sound i T l h T' c : 0 < i < 32 -> spsrlq i T l h = (T', c) ->
  ext T T' /\ forall env vl vh, Sat env T' -> wrel env l vl -> wrel env h vh ->
  vrel env 2 c [w32 (Z.shiftr (vl + 2 ^ 32 * vh) i); w32 (Z.shiftr (Z.shiftr (vl + 2 ^ 32 * vh) i) 32)].
Proof.
  intros I E.
  assert (D : (T' = T /\ c = [SX; SX]) \/ (l <> SX /\ h <> SX /\
    (let (T1, x) := sshr i T l in
      let (T2, y) := sshl (32 - i) T1 h in
      let (T3, z) := sxor T2 x y in
      let (T4, u) := sshr i T3 h in
      (T4, [z; u])) = (T', c))).
  { unfold spsrlq in E. destruct l, h;
      first [left; apply pair_equal_spec in E as [<- <-]; auto; fail
            |right; split; [discriminate|split; [discriminate|exact E]]]. }
  destruct D as [[-> ->]|(NL & NH & D)].
  - split; [apply ext_refl|]. intros. split; [reflexivity|]. repeat constructor.
  - clear E. stp (sshr_sound i I) D. stp (sshl_sound (32 - i) ltac:(lia)) D. stp sxor_sound D.
    stp (sshr_sound i I) D. apply pair_equal_spec in D as [<- <-]. split; [extt|].
    intros env vl vh S A B.
    pose proof (wrel_range env l vl NL A). pose proof (wrel_range env h vh NH B).
    rewrite psrlq_lo, psrlq_hi by assumption. split; [reflexivity|].
    constructor; [wr|]. constructor; [wr|]. constructor.
Qed.
Lemma slane_uop_sound op : uop_ok op = true -> vsound1 (slane_uop op) (lane_uop op).
Proof.
  intros O T a T' c E.
  destruct op; cbn [slane_uop lane_uop uop_ok] in *.
  - apply (smap_sound _ _ (sshl_sound i ltac:(lia))) in E as [X E]. split; [exact X|]. intros; apply E; assumption.
  - apply (smap_sound _ _ (sshr_sound i ltac:(lia))) in E as [X E]. split; [exact X|]. intros; apply E; assumption.
  - assert (I : 0 < i < 32) by lia.
    destruct (spsrlq i T (wnth 0 a) (wnth 1 a)) as [T1 x] eqn:E1.
    destruct (spsrlq i T1 (wnth 2 a) (wnth 3 a)) as [T2 y] eqn:E2.
    apply (spsrlq_sound i _ _ _ _ _ I) in E1 as [X1 E1]. apply (spsrlq_sound i _ _ _ _ _ I) in E2 as [X2 E2].
    apply pair_equal_spec in E as [<- <-]. split; [extt|].
    intros env va S [_ A].
    destruct (E1 env (nth 0 va 0) (nth 1 va 0)) as [L1 F1]; [satt|apply wrel_nth; exact A|apply wrel_nth; exact A|].
    destruct (E2 env (nth 2 va 0) (nth 3 va 0)) as [L2 F2]; [satt|apply wrel_nth; exact A|apply wrel_nth; exact A|].
    split; [rewrite app_length, L1, L2; reflexivity|]. unfold psrlq. cbn [Nat.mul Nat.add].
    exact (Forall2_app F1 F2).
  - apply pair_equal_spec in E as [<- <-]. split; [apply ext_refl|]. intros; apply pshufd_sound; assumption.
  - apply pair_equal_spec in E as [<- <-]. split; [apply ext_refl|]. auto.
Qed.

(** *** Whole registers *)
Lemma vrel_app env n m a b va vb : vrel env n a va -> vrel env m b vb -> vrel env (n + m) (a ++ b) (va ++ vb).
Proof.
  intros [L A] [M B]. split; [rewrite app_length; congruence|]. apply Forall2_app; assumption.
Qed.
Lemma vrel_firstn env n m a va : vrel env n a va -> (m <= n)%nat -> vrel env m (firstn m a) (firstn m va).
Proof.
  intros [L A] M. split; [rewrite firstn_length; lia|]. clear L M n. revert m.
  induction A; intros [|m]; cbn [firstn]; constructor; auto.
Qed.
Lemma vrel_skipn env n m a va : vrel env n a va -> vrel env (n - m) (skipn m a) (skipn m va).
Proof.
  intros [L A]. split; [rewrite skipn_length; lia|]. clear L n. revert m.
  induction A; intros [|m]; cbn [skipn]; auto.
Qed.
Lemma vrel_lo env a va : vrel env 8 a va -> vrel env 4 (slo a) (lo va).
Proof. intros V. apply (vrel_firstn env 8); [exact V|lia]. Qed.
Lemma vrel_hi env a va : vrel env 8 a va -> vrel env 4 (shi a) (hi va).
Proof. intros V. apply (vrel_firstn env 4); [exact (vrel_skipn env 8 4 a va V)|lia]. Qed.
Lemma vrel_lo4 env a va : vrel env 4 a va -> vrel env 4 (slo a) (lo va).
Proof. intros V. apply (vrel_firstn env 4); [exact V|lia]. Qed.
Lemma vrel_zero env n : vrel env n (repeat (sconst 0) n) (repeat 0 n).
Proof.
  split; [apply repeat_length|]. induction n; cbn [repeat]; constructor; auto. apply wrel_const. lia.
Qed.
Lemma vrel_merge env k old vold x vx : vrel env 8 old vold -> vrel env (dwords k) x vx ->
  vrel env 8 (smerge k old x) (merge k vold vx).
Proof.
  intros O X. destruct k; cbn [smerge merge dwords] in *.
  - exact (vrel_app env 4 4 _ _ _ _ X (vrel_zero env 4)).
  - exact X.
  - exact (vrel_app env 4 4 _ _ _ _ X (vrel_hi env _ _ O)).
Qed.
(** the second operand is a register, or as many doublewords as the instruction reads *)
Definition operand (env : positive -> Z) (k : vkind) (b : list sword) (vb : list Z) : Prop :=
  vrel env 8 b vb \/ vrel env (dwords k) b vb.
Lemma operand_lo env k b vb : operand env k b vb -> vrel env 4 (slo b) (lo vb).
Proof. intros [V|V]; [apply vrel_lo; exact V|]. destruct k; [apply vrel_lo4|apply vrel_lo|apply vrel_lo4]; exact V. Qed.
Lemma svbin_sound k op T a b T' c : svbin k op T a b = (T', c) ->
  ext T T' /\ forall env va vb, Sat env T' -> vrel env 8 a va -> operand env k b vb ->
  vrel env (dwords k) c (vbin k op va vb).
Proof.
  intros E. destruct k; cbn [svbin vbin dwords] in *.
  - fin slane_op_sound E. split; [extt|]. intros env va vb S A B.
    match goal with H : forall env va vb, _ |- _ => apply H end; [exact S|apply vrel_lo; exact A|eapply operand_lo; exact B].
  - stp (slane_op_sound op) E. stp (slane_op_sound op) E. apply pair_equal_spec in E as [<- <-]. split; [extt|].
    intros env va vb S A B. assert (B8 : vrel env 8 b vb) by (destruct B; assumption).
    apply (vrel_app env 4 4).
    + match goal with H : forall env va vb, _ |- vrel _ _ l _ => apply H end;
        [satt|apply vrel_lo; exact A|apply vrel_lo; exact B8].
    + match goal with H : forall env va vb, _ |- vrel _ _ l0 _ => apply H end;
        [satt|apply vrel_hi; exact A|apply vrel_hi; exact B8].
  - fin slane_op_sound E. split; [extt|]. intros env va vb S A B.
    match goal with H : forall env va vb, _ |- _ => apply H end; [exact S|apply vrel_lo; exact A|eapply operand_lo; exact B].
Qed.
Lemma svun_sound k op T a T' c : uop_ok op = true -> svun k op T a = (T', c) ->
  ext T T' /\ forall env va, Sat env T' -> vrel env 8 a va -> vrel env (dwords k) c (vun k op va).
Proof.
  intros O E. destruct k; cbn [svun vun dwords] in *.
  - fin (slane_uop_sound op O) E. split; [extt|]. intros env va S A.
    match goal with H : forall env va, _ |- _ => apply H end; [exact S|apply vrel_lo; exact A].
  - stp (slane_uop_sound op O) E. stp (slane_uop_sound op O) E. apply pair_equal_spec in E as [<- <-]. split; [extt|].
    intros env va S A. apply (vrel_app env 4 4).
    + match goal with H : forall env va, _ |- vrel _ _ l _ => apply H end; [satt|apply vrel_lo; exact A].
    + match goal with H : forall env va, _ |- vrel _ _ l0 _ => apply H end; [satt|apply vrel_hi; exact A].
  - fin (slane_uop_sound op O) E. split; [extt|]. intros env va S A.
    match goal with H : forall env va, _ |- _ => apply H end; [exact S|apply vrel_lo; exact A].
Qed.
Lemma shalf_sound i env a b va vb : vrel env 8 a va -> vrel env 8 b vb -> vrel env 4 (shalf i a b) (half i va vb).
Proof.
  intros A B. unfold shalf, half. destruct (Z.testbit i 3); [exact (vrel_zero env 4)|].
  destruct (Z.land i 3) as [|[[| |]|[| |]|]|]; auto using vrel_lo, vrel_hi.
Qed.
