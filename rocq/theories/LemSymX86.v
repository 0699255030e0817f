(** Soundness of the symbolic execution of SymX86.v. *)
From Coq Require Import ZArith String List Bool Lia ZifyBool ZifyNat.
From Verif Require Import Base ModelX86 SpecTime LemBase.
From Verif Require Import SymWord LemSymWord SymX86 LemSymVec.
Import ListNotations.
Open Scope list_scope.
Open Scope Z_scope.
Ltac Zify.zify_post_hook ::= Z.div_mod_to_equations.

(** ** Lists *)
Lemma some_inj {A} (x y : A) : Some x = Some y -> x = y.
Proof. congruence. Qed.
Lemma F2_nth {A B} (R : A -> B -> Prop) l vs d e : Forall2 R l vs -> R d e ->
  forall i, R (nth i l d) (nth i vs e).
Proof. intros F D. induction F; intros [|i]; cbn [nth]; auto. Qed.
Lemma F2_upd {A B} (R : A -> B -> Prop) l vs x v : Forall2 R l vs -> R x v ->
  forall i, Forall2 R (upd l i x) (upd vs i v).
Proof. intros F D. induction F; intros [|i]; cbn [upd]; constructor; auto. Qed.
Lemma nth_upd_get {A} (t : A) : forall l k k' d, nth k' (upd l k t) d = nth k' l d \/ (k' = k /\ nth k' (upd l k t) d = t).
Proof. induction l as [|x l IH]; intros [|k] [|k'] d; cbn [upd nth]; auto. destruct (IH k k' d) as [H|[-> H]]; auto. Qed.
Lemma nth_upd_ne {A} (t : A) : forall l k k' d, k' <> k -> nth k' (upd l k t) d = nth k' l d.
Proof. intros l k k' d N. destruct (nth_upd_get t l k k' d) as [H|[E _]]; [exact H|congruence]. Qed.
Lemma nth_upd_eq {A} (t : A) : forall l k d, nth k (upd l k t) d = t \/ (nth k (upd l k t) d = d /\ nth k l d = d).
Proof. induction l as [|x l IH]; intros [|k] d; cbn [upd nth]; auto. Qed.

(** ** Arithmetic modulo 2^64 *)
Lemma w64_range x : 0 <= w64 x < 2 ^ 64.
Proof. unfold w64. apply Z.mod_pos_bound. lia. Qed.
Lemma w64_small x : 0 <= x < 2 ^ 64 -> w64 x = x.
Proof. apply Z.mod_small. Qed.
Lemma w64_add x y : w64 (w64 x + y) = w64 (x + y).
Proof. unfold w64. rewrite Z.add_mod_idemp_l by lia. reflexivity. Qed.
Lemma w64_add_r x y : w64 (x + w64 y) = w64 (x + y).
Proof. unfold w64. rewrite Z.add_mod_idemp_r by lia. reflexivity. Qed.
Lemma w64_w64 x : w64 (w64 x) = w64 x.
Proof. apply w64_small, w64_range. Qed.

Lemma steps_app rd wr sect code n m st :
  steps rd wr sect code (n + m) st = obind (steps rd wr sect code n st) (steps rd wr sect code m).
Proof.
  revert st. induction n as [|n IH]; intros st; cbn [steps Nat.add obind]; [reflexivity|].
  destruct (step rd wr sect code st) as [s|]; cbn [obind]; auto.
Qed.

(** [steps], as long as the program counter is in [lo, hi). *)
Fixpoint walk (rd wr : Z -> bool) (sect : nat -> Z) (code : list instr) (lo hi : Z) (n : nat) (st : state) : option state :=
  match n with
  | O => Some st
  | S n' => if (lo <=? pc st) && (pc st <? hi) then obind (step rd wr sect code st) (walk rd wr sect code lo hi n') else None
  end.
Lemma walk_app rd wr sect code lo hi n m st :
  walk rd wr sect code lo hi (n + m) st = obind (walk rd wr sect code lo hi n st) (walk rd wr sect code lo hi m).
Proof.
  revert st. induction n as [|n IH]; intros st; cbn [walk Nat.add obind]; [reflexivity|].
  destruct (_ && _); [|reflexivity]. destruct (step rd wr sect code st) as [s|]; cbn [obind]; auto.
Qed.
Lemma walk_steps rd wr sect code lo hi : forall n st st', walk rd wr sect code lo hi n st = Some st' ->
  steps rd wr sect code n st = Some st' /\
  forall j s, (j < n)%nat -> steps rd wr sect code j st = Some s -> lo <= pc s < hi.
Proof.
  induction n as [|n IH]; intros st st'; cbn [walk steps].
  - intros H. split; [exact H|]. intros j s J. lia.
  - destruct (_ && _) eqn:C; [|discriminate]. destruct (step rd wr sect code st) as [s1|] eqn:E; cbn [obind]; [|discriminate].
    intros H. apply IH in H as [A B]. split; [exact A|]. intros [|j] s J; cbn [steps].
    + intros Q. apply some_inj in Q. subst s. lia.
    + rewrite E. cbn [obind]. apply B. lia.
Qed.
Lemma walk_wider rd wr sect code lo hi lo' hi' : lo' <= lo -> hi <= hi' -> forall n st st',
  walk rd wr sect code lo hi n st = Some st' -> walk rd wr sect code lo' hi' n st = Some st'.
Proof.
  intros L H. induction n as [|n IH]; intros st st'; cbn [walk]; [auto|].
  destruct ((lo <=? pc st) && (pc st <? hi)) eqn:C; [|discriminate].
  replace ((lo' <=? pc st) && (pc st <? hi')) with true by lia.
  destruct (step rd wr sect code st) as [s1|]; cbn [obind]; [apply IH|discriminate].
Qed.

(** ** Code *)
Lemma mk_prog_get : forall c i t p, tget p (mk_prog c i t) =
  if (i <=? p)%positive && (Zpos p <? Zpos i + zlen c)
  then nth_error c (Z.to_nat (Zpos p - Zpos i)) else tget p t.
Proof.
  unfold zlen. induction c as [|x c IH]; intros i t p; cbn [mk_prog length].
  - replace (Zpos p <? Zpos i + Z.of_nat 0) with (Zpos p <? Zpos i) by lia.
    destruct ((i <=? p)%positive && (Zpos p <? Zpos i)) eqn:C; [lia|reflexivity].
  - rewrite IH. destruct ((Pos.succ i <=? p)%positive && (Zpos p <? Zpos (Pos.succ i) + Z.of_nat (length c))) eqn:C.
    + replace ((i <=? p)%positive && (Zpos p <? Zpos i + Z.of_nat (S (length c)))) with true by lia.
      replace (Z.to_nat (Zpos p - Zpos i)) with (S (Z.to_nat (Zpos p - Zpos (Pos.succ i)))) by lia. reflexivity.
    + destruct (Pos.eq_dec i p) as [<-|N].
      * rewrite tget_set_same. replace ((i <=? i)%positive && (Zpos i <? Zpos i + Z.of_nat (S (length c)))) with true by lia.
        replace (Z.to_nat (Zpos i - Zpos i)) with 0%nat by lia. reflexivity.
      * rewrite tget_set_other by exact N.
        replace ((i <=? p)%positive && (Zpos p <? Zpos i + Z.of_nat (S (length c)))) with false by lia. reflexivity.
Qed.
Lemma nth_error_skipn {A} (l : list A) : forall k j, nth_error (skipn k l) j = nth_error l (k + j).
Proof. induction l as [|x l IH]; intros [|k] j; cbn [skipn nth_error Nat.add]; auto. destruct j; reflexivity. Qed.
Lemma nth_error_firstn {A} (l : list A) : forall k j x, nth_error (firstn k l) j = Some x -> nth_error l j = Some x /\ (j < k)%nat.
Proof.
  induction l as [|y l IH]; intros [|k] [|j] x E; cbn [firstn nth_error] in *; try discriminate; try (split; [exact E|lia]).
  apply IH in E. split; [tauto|lia].
Qed.
Lemma sfetch_sound code lo n p i :
  sfetch (mk_prog (firstn n (skipn lo code)) (Pos.of_succ_nat lo) TLeaf) (SC p) = Some i ->
  fetch code p = Some i /\ Z.of_nat lo <= p < Z.of_nat lo + Z.of_nat n.
Proof.
  assert (Q : forall q, tget q (mk_prog (firstn n (skipn lo code)) (Pos.of_succ_nat lo) TLeaf) = Some i ->
    fetch code (Zpos q - 1) = Some i /\ Z.of_nat lo <= Zpos q - 1 < Z.of_nat lo + Z.of_nat n).
  { intros q. rewrite mk_prog_get, tget_leaf. destruct (_ && _) eqn:C; [|discriminate]. intros E.
    apply nth_error_firstn in E as [E L]. rewrite nth_error_skipn in E. unfold fetch.
    replace (0 <=? Zpos q - 1) with true by lia.
    replace (Z.to_nat (Zpos q - 1)) with (lo + Z.to_nat (Zpos q - Zpos (Pos.of_succ_nat lo)))%nat by lia.
    split; [exact E|lia]. }
  destruct p as [|q|q]; cbn [sfetch]; [| |discriminate]; intros E; apply Q in E.
  - exact E.
  - replace (Zpos (Pos.succ q) - 1) with (Zpos q) in E by lia. exact E.
Qed.
Lemma assoc_labels l : forall c k, assoc l (mk_labels c k) = find_label l c k.
Proof.
  induction c as [|i c IH]; intros k; [reflexivity|]. destruct i; cbn [mk_labels find_label assoc]; auto.
  destruct (String.eqb l l0); auto.
Qed.

Section Sim.
Variables RD WR : Z -> bool.
Variable sect : nat -> Z.
Variable code : list instr.
Variable rgs : list region.
(** the unknown bases *)
Variable bv : nat -> Z.
Variable env : positive -> Z.
(** the memory at the start *)
Variable m0 : Z -> Z.
Notation rg := (SymX86.rg rgs).
Definition ad (k : nat) (o : Z) : Z := w64 (bv k + o).
Record Layout : Prop := {
  L_sect : forall s, (s < 5)%nat -> sect s = bv s;
  L_rd : forall k o, 0 <= o < rsize (rg k) -> RD (ad k o) = true;
  L_wr : forall k o, 0 <= o < rwr (rg k) -> WR (ad k o) = true;
  L_inj : forall k o k' o', 0 <= o < rwr (rg k) -> 0 <= o' < rsize (rg k') ->
          ad k o = ad k' o' -> k = k' /\ o = o';
  L_size : forall k, rsize (rg k) < 2 ^ 64;
  L_align : forall k, (ralign (rg k) | bv k);
  L_code : forallb instr_ok code = true }.
Hypothesis HL : Layout.

(** ** Relation between symbolic and real states *)
Definition grel (g : sgpr) (v : Z) : Prop :=
  match g with
  | SW w => wrel env w v
  | SPtr k o => v = ad k o
  | SC c => v = c /\ 0 <= c < 2 ^ 64
  end.
Definition pcrel (g : sgpr) (v : Z) : Prop :=
  match g with
  | SW _ => True
  | SPtr k o => v = ad k o
  | SC c => v = c
  end.
Definition crel (c : cell) (x : Z) : Prop :=
  match c with
  | CD w => wrel env w x
  | CLo g => exists v, grel g v /\ x = v mod 2 ^ 32
  | CHi g => exists v, grel g v /\ x = (v / 2 ^ 32) mod 2 ^ 32
  end.
Definition frel (f : option sflags) (x : option flagset) : Prop :=
  match f with
  | None => True
  | Some (FCmp g n) => exists v, grel g v /\ x = Some (cmp_flags v n)
  | Some (FTest g) => exists v, grel g v /\ x = Some (test_flags v v)
  end.
Definition cond_ok (c : sflags * jcc * bool) : Prop :=
  let '(f, j, b) := c in
  match f with
  | FCmp g n => forall v, grel g v -> flag_of j (cmp_flags v n) = b
  | FTest g => forall v, grel g v -> flag_of j (test_flags v v) = b
  end.
Definition mw (m : Z -> Z) (k : nat) (o : Z) : Z :=
  le_val [m (ad k o); m (ad k (o + 1)); m (ad k (o + 2)); m (ad k (o + 3))].
Definition offp (i : positive) : Z := 4 * (Zpos i - 1).
Definition mrel (M : list (trie cell)) (m : Z -> Z) : Prop :=
  forall k i c, tget i (nth k M TLeaf) = Some c ->
  offp i + 4 <= rsize (rg k) /\ crel c (mw m k (offp i)).
Definition framed (m : Z -> Z) : Prop :=
  forall x, (forall k o, 0 <= o < rwr (rg k) -> x <> ad k o) -> m x = m0 x.
Record Rel (S : sstate) (st : state) : Prop := {
  R_pc : pcrel (spc S) (pc st);
  R_gpr : Forall2 grel (sgprs S) (gpr st);
  R_len : length (svecs S) = 16%nat;
  R_vec : Forall2 (vrel env 8) (svecs S) (ymm st);
  R_fl : frel (sfl S) (flags st);
  R_mem : mrel (smem S) (mem st);
  R_frame : framed (mem st) }.

(** ** Addresses *)
Lemma ad_add k o d : w64 (ad k o + d) = ad k (o + d).
Proof. unfold ad. rewrite w64_add. f_equal. lia. Qed.
Lemma getg_rel S st r : Rel S st -> grel (getg S r) (getr st r).
Proof. intros R. apply (F2_nth grel); [exact (R_gpr _ _ R)|exact Logic.I]. Qed.
Lemma getx_rel S st v : Rel S st -> vok v = true -> vrel env 8 (getx S v) (getv st v).
Proof.
  intros R V. unfold vok in V. apply Nat.ltb_lt in V. unfold getx, getv.
  pose proof (R_vec _ _ R) as F. pose proof (R_len _ _ R) as L. revert v V L. generalize 16%nat as N.
  intros N v V L. subst N. revert v V. induction F; intros [|v] V; cbn [nth length] in *; [lia|lia|auto|].
  apply IHF. lia.
Qed.
Lemma sea_sound S st a k o : Rel S st -> sea S a = Some (k, o) -> ea sect st a = ad k o.
Proof.
  intros R E. destruct a as [r d|r s d|s d]; cbn [sea ea] in *.
  - pose proof (getg_rel S st r R) as G. destruct (getg S r) as [w|k' o'|c]; try discriminate.
    injection E as -> <-. cbn [grel] in G. rewrite G. apply ad_add.
  - pose proof (getg_rel S st r R) as G. pose proof (getg_rel S st s R) as G'.
    destruct (getg S r) as [w|k' o'|c]; try discriminate. destruct (getg S s) as [w|k2 o2|c]; try discriminate.
    injection E as -> <-. cbn [grel] in G, G'. destruct G' as [G' _]. rewrite G, G'.
    rewrite <- Z.add_assoc, ad_add. f_equal. lia.
  - destruct (Nat.ltb s 5) eqn:C; [|discriminate]. injection E as -> <-. unfold ad. rewrite (L_sect HL) by lia. reflexivity.
Qed.
Lemma in_range_spec k o n : in_range rgs k o n = true -> 0 <= o /\ o + n <= rsize (rg k) /\ o mod 4 = 0.
Proof.
  unfold in_range. intros C. change 3 with (Z.ones 2) in C. rewrite Z.land_ones in C by lia. change (2 ^ 2) with 4 in C. lia.
Qed.
Lemma key_off o : 0 <= o -> o mod 4 = 0 -> offp (key o) = o.
Proof.
  intros O M. unfold offp, key. rewrite Z.shiftr_div_pow2 by lia. change (2 ^ 2) with 4. lia.
Qed.
Lemma offp_succ i : offp (Pos.succ i) = offp i + 4.
Proof. unfold offp. lia. Qed.
Lemma addrs_ad k o n : addrs (ad k o) n = map (fun i => ad k (o + Z.of_nat i)) (seq 0 n).
Proof. unfold addrs. apply map_ext. intros i. apply ad_add. Qed.
Lemma load_ok m k o n : 0 <= o -> o + Z.of_nat n <= rsize (rg k) ->
  load RD m (ad k o) n = Some (map (fun i => m (ad k (o + Z.of_nat i))) (seq 0 n)).
Proof.
  intros O N. unfold load. rewrite addrs_ad, map_map.
  replace (forallb RD _) with true; [reflexivity|]. symmetry. apply forallb_forall.
  intros x X. apply in_map_iff in X as (i & <- & I). apply in_seq in I. apply (L_rd HL). lia.
Qed.

(** ** Loads *)
Fixpoint mws (m : Z -> Z) (k : nat) (o : Z) (n : nat) : list Z :=
  match n with O => [] | S n' => mw m k o :: mws m k (o + 4) n' end.
Lemma map_seq_shift {A} (f : nat -> A) s : forall n a, map f (seq (s + a) n) = map (fun i => f (s + i)%nat) (seq a n).
Proof. induction n as [|n IH]; intros a; cbn [seq map]; [reflexivity|]. f_equal. rewrite <- IH. do 2 f_equal. lia. Qed.
Lemma of_bytes_load m k : forall n o,
  of_bytes n (map (fun i => m (ad k (o + Z.of_nat i))) (seq 0 (4 * n))) = mws m k o n.
Proof.
  induction n as [|n IH]; intros o; [reflexivity|]. cbn [of_bytes mws].
  replace (4 * S n)%nat with (4 + 4 * n)%nat by lia. rewrite seq_app, map_app. cbn [seq map firstn skipn app].
  f_equal.
  - unfold mw. change (Z.of_nat 0) with 0. change (Z.of_nat 1) with 1. change (Z.of_nat 2) with 2. change (Z.of_nat 3) with 3.
    rewrite Z.add_0_r. reflexivity.
  - rewrite <- IH. f_equal. change (0 + 4)%nat with (4 + 0)%nat. rewrite map_seq_shift. apply map_ext. intros i. do 2 f_equal. lia.
Qed.
Lemma read_words_sound M m k : mrel M m -> forall n i,
  vrel env n (read_words n (nth k M TLeaf) i) (mws m k (offp i) n).
Proof.
  intros R. induction n as [|n IH]; intros i; cbn [read_words mws]; [split; constructor|].
  rewrite <- offp_succ. destruct (IH (Pos.succ i)) as [L F]. split; [cbn; congruence|]. constructor; [|exact F].
  destruct (tget i (nth k M TLeaf)) as [c|] eqn:E; cbn [cell_word]; [|exact Logic.I].
  destruct c as [w|g|g]; try exact Logic.I. apply (R k i _ E).
Qed.
Lemma sload_sound S st n a l : Rel S st -> sload rgs S n a = Some l ->
  exists vs, option_map (of_bytes n) (load RD (mem st) (ea sect st a) (4 * n)) = Some vs /\ vrel env n l vs.
Proof.
  intros R E. unfold sload in E. destruct (sea S a) as [[k o]|] eqn:A; [|discriminate].
  destruct (in_range rgs k o (4 * Z.of_nat n)) eqn:C; [|discriminate]. apply in_range_spec in C as (C1 & C2 & C3).
  injection E as <-. rewrite (sea_sound S st a k o R A), load_ok by lia. cbn [option_map]. rewrite of_bytes_load.
  eexists. split; [reflexivity|]. rewrite <- (key_off o) at 2 by assumption. apply read_words_sound. exact (R_mem _ _ R).
Qed.
Lemma sload1_sound S st a w : Rel S st -> sload rgs S 1 a = Some [w] ->
  exists v, load_int RD (mem st) (ea sect st a) 4 = Some v /\ wrel env w v.
Proof.
  intros R E. destruct (sload_sound S st 1 a [w] R E) as (vs & L & V). unfold load_int.
  change (4 * 1)%nat with 4%nat in L. destruct (load RD (mem st) (ea sect st a) 4) as [bs|] eqn:B; [|discriminate].
  cbn [option_map of_bytes] in *. injection L as <-. eexists. split; [reflexivity|].
  unfold load in B. destruct (forallb _ _) in B; [|discriminate]. injection B as <-.
  destruct V as [_ V]. inversion V; subst. assumption.
Qed.
Lemma le_val_app a b : le_val (a ++ b) = le_val a + 256 ^ zlen a * le_val b.
Proof.
  induction a as [|x a IH]; cbn [app le_val].
  - change (256 ^ zlen (@nil Z)) with 1. lia.
  - rewrite IH. unfold zlen. cbn [length]. rewrite Nat2Z.inj_succ, Z.pow_succ_r by lia. lia.
Qed.
Lemma sload64_sound S st k o g : Rel S st -> sload64 rgs S (k, o) = Some g ->
  exists v, load_int RD (mem st) (ad k o) 8 = Some v /\ grel g v /\ (forall p, pcrel g p -> p = v) /\ pcrel g v.
Proof.
  intros R E. unfold sload64 in E. destruct (in_range rgs k o 8) eqn:C; [|discriminate].
  apply in_range_spec in C as (C1 & C2 & C3).
  unfold load_int. rewrite load_ok by lia. cbn [option_map].
  assert (V : le_val (map (fun i => mem st (ad k (o + Z.of_nat i))) (seq 0 8)) =
              mw (mem st) k o + 2 ^ 32 * mw (mem st) k (o + 4)).
  { change 8%nat with (4 + 4)%nat. rewrite seq_app, map_app, le_val_app. unfold mw.
    cbn [seq map Nat.add]. change (256 ^ _) with (2 ^ 32).
    change (Z.of_nat 0) with 0. change (Z.of_nat 1) with 1. change (Z.of_nat 2) with 2. change (Z.of_nat 3) with 3.
    change (Z.of_nat 4) with 4. change (Z.of_nat 5) with (4 + 1). change (Z.of_nat 6) with (4 + 2). change (Z.of_nat 7) with (4 + 3).
    rewrite Z.add_0_r, !Z.add_assoc. reflexivity. }
  rewrite V. clear V.
  unfold mem_at in E. cbv zeta in E. pose proof (R_mem _ _ R) as M.
  destruct (tget (key o) (nth k (smem S) TLeaf)) as [c1|] eqn:E1; [|discriminate].
  destruct (tget (Pos.succ (key o)) (nth k (smem S) TLeaf)) as [c2|] eqn:E2; [|destruct c1; discriminate].
  apply M in E1 as [_ E1]. apply M in E2 as [_ E2]. rewrite offp_succ in E2. rewrite key_off in E1, E2 by assumption.
  set (x := mw (mem st) k o) in *. set (y := mw (mem st) k (o + 4)) in *. clearbody x y.
  eexists. split; [reflexivity|].
  destruct c1 as [w|g1|g1], c2 as [w'|g2|g2]; try discriminate.
  - destruct (const_of w) as [c|] eqn:D1; [|discriminate]. destruct (const_of w') as [c'|] eqn:D2; [|discriminate].
    apply some_inj in E. subst g. cbn [crel] in E1, E2. apply (const_of_sound env w c x D1) in E1. apply (const_of_sound env w' c' y D2) in E2.
    rewrite !land_full. subst x y. cbn [grel pcrel]. change 4294967296 with (2 ^ 32).
    pose proof (Z.mod_pos_bound c (2 ^ 32) ltac:(lia)) as B1. pose proof (Z.mod_pos_bound c' (2 ^ 32) ltac:(lia)) as B2.
    set (x := c mod 2 ^ 32) in *. set (y := c' mod 2 ^ 32) in *. clearbody x y.
    split; [split; [reflexivity|lia]|]. split; auto.
  - destruct (geqb g1 g2) eqn:G; [|discriminate]. injection E as <-.
    cbn [crel] in E1, E2. destruct E1 as (v & G1 & ->). destruct E2 as (v' & G2 & ->).
    destruct g1 as [w|k1 o1|c1], g2 as [w'|k2 o2|c2]; try discriminate; cbn [geqb] in G; cbn [grel] in G1, G2.
    + apply andb_prop in G as [Ga Gb]. apply Nat.eqb_eq in Ga. apply Z.eqb_eq in Gb. subst k2 o2.
      assert (W : v mod 2 ^ 32 + 2 ^ 32 * ((v' / 2 ^ 32) mod 2 ^ 32) = ad k1 o1).
      { rewrite G1, G2. pose proof (w64_range (bv k1 + o1)) as Q. unfold ad.
        set (z := w64 (bv k1 + o1)) in *. clearbody z.
        rewrite (Z.mod_small (z / 2 ^ 32)); lia. }
      rewrite W. cbn [grel pcrel]. auto.
    + apply Z.eqb_eq in G. subst c2. destruct G1 as [-> G1], G2 as [-> _].
      assert (W : c1 mod 2 ^ 32 + 2 ^ 32 * ((c1 / 2 ^ 32) mod 2 ^ 32) = c1).
      { rewrite (Z.mod_small (c1 / 2 ^ 32)); lia. }
      rewrite W. cbn [grel pcrel]. auto.
Qed.

(** ** Stores *)
Lemma put_in m a bs j : 0 <= j < zlen bs -> zlen bs < 2 ^ 64 -> put m a bs (w64 (a + j)) = nth (Z.to_nat j) bs 0.
Proof.
  intros J N. unfold put. cbv zeta.
  replace (w64 (w64 (a + j) - a)) with j.
  - pose proof (w64_range (a + j)). replace (_ && _ && _) with true by lia. reflexivity.
  - unfold Z.sub. rewrite w64_add. replace (a + j + - a) with j by lia. symmetry. apply w64_small. lia.
Qed.
Lemma put_out m a bs x : (forall j, 0 <= j < zlen bs -> x <> w64 (a + j)) -> put m a bs x = m x.
Proof.
  intros H. unfold put. cbv zeta. destruct (_ && _ && _) eqn:C; [|reflexivity]. exfalso.
  pose proof (w64_range (x - a)). apply (H (w64 (x - a))); [lia|]. rewrite w64_add_r.
  replace (a + (x - a)) with x by lia. symmetry. apply w64_small. lia.
Qed.
Lemma store_ok m k o bs : 0 <= o -> o + zlen bs <= rwr (rg k) ->
  store WR m (ad k o) bs = Some (put m (ad k o) bs).
Proof.
  intros O N. unfold store. rewrite addrs_ad. replace (forallb WR _) with true; [reflexivity|].
  symmetry. apply forallb_forall. unfold zlen in N.
  intros x X. apply in_map_iff in X as (i & <- & I). apply in_seq in I. apply (L_wr HL); lia.
Qed.
Fixpoint write_cells (l : list cell) (t : trie cell) (i : positive) : trie cell :=
  match l with [] => t | c :: r => write_cells r (tset i c t) (Pos.succ i) end.
Lemma write_words_cells : forall l t i, write_words l t i = write_cells (map CD l) t i.
Proof. induction l; intros; cbn [write_words write_cells map]; auto. Qed.
Lemma write_cells_get : forall l t i p, tget p (write_cells l t i) =
  if (i <=? p)%positive && (Zpos p <? Zpos i + zlen l)
  then nth_error l (Z.to_nat (Zpos p - Zpos i)) else tget p t.
Proof.
  unfold zlen. induction l as [|x c IH]; intros i t p; cbn [write_cells length].
  - replace (Zpos p <? Zpos t + Z.of_nat 0) with (Zpos p <? Zpos t) by lia.
    destruct ((t <=? p)%positive && (Zpos p <? Zpos t)) eqn:C; [lia|reflexivity].
  - rename t into i', i into t. rename i' into i. rewrite IH.
    destruct ((Pos.succ i <=? p)%positive && (Zpos p <? Zpos (Pos.succ i) + Z.of_nat (length c))) eqn:C.
    + replace ((i <=? p)%positive && (Zpos p <? Zpos i + Z.of_nat (S (length c)))) with true by lia.
      replace (Z.to_nat (Zpos p - Zpos i)) with (S (Z.to_nat (Zpos p - Zpos (Pos.succ i)))) by lia. reflexivity.
    + destruct (Pos.eq_dec i p) as [<-|N].
      * rewrite tget_set_same. replace ((i <=? i)%positive && (Zpos i <? Zpos i + Z.of_nat (S (length c)))) with true by lia.
        replace (Z.to_nat (Zpos i - Zpos i)) with 0%nat by lia. reflexivity.
      * rewrite tget_set_other by exact N.
        replace ((i <=? p)%positive && (Zpos p <? Zpos i + Z.of_nat (S (length c)))) with false by lia. reflexivity.
Qed.
Lemma to_bytes_length ws : length (to_bytes ws) = (4 * length ws)%nat.
Proof. induction ws as [|w ws IH]; [reflexivity|]. unfold to_bytes in *. cbn [flat_map]. rewrite app_length, IH, le_bytes_length. cbn [length]. lia. Qed.
Lemma nth_to_bytes : forall ws j b, (b < 4)%nat -> (j < length ws)%nat ->
  nth (4 * j + b) (to_bytes ws) 0 = nth b (le_bytes 4 (nth j ws 0)) 0.
Proof.
  induction ws as [|w ws IH]; intros j b B J; [cbn in J; lia|]. unfold to_bytes. cbn [flat_map].
  destruct j as [|j].
  - rewrite app_nth1 by (rewrite le_bytes_length; lia). reflexivity.
  - rewrite app_nth2 by (rewrite le_bytes_length; lia). rewrite le_bytes_length.
    replace (4 * S j + b - 4)%nat with (4 * j + b)%nat by lia. apply IH; [exact B|cbn in J; lia].
Qed.
Lemma store_sound M m k o cs ws :
  mrel M m -> framed m -> in_range rgs k o (4 * zlen cs) = true -> o + 4 * zlen cs <= rwr (rg k) ->
  Forall2 (fun c w => crel c (w mod 2 ^ 32)) cs ws ->
  exists m', store WR m (ad k o) (to_bytes ws) = Some m' /\
    mrel (upd M k (write_cells cs (nth k M TLeaf) (key o))) m' /\ framed m'.
Proof.
  intros HM HF C W F. apply in_range_spec in C as (C1 & C2 & C3).
  pose proof (F2_length _ _ _ F) as L. unfold zlen in C2.
  assert (N : zlen (to_bytes ws) = 4 * zlen cs) by (unfold zlen; rewrite to_bytes_length, <- L; lia).
  pose proof (L_size HL k) as SZ.
  eexists. split; [apply store_ok; auto; unfold zlen in *; lia|]. split.
  - assert (NE : forall k' o', 0 <= o' < rsize (rg k') -> (k' <> k \/ o' < o \/ o + 4 * zlen cs <= o') ->
        put m (ad k o) (to_bytes ws) (ad k' o') = m (ad k' o')).
    { intros k' o' R D. apply put_out. intros j J E. rewrite ad_add in E. symmetry in E.
      apply (L_inj HL) in E; [|unfold zlen in *; lia|exact R]. lia. }
    intros k' i c G.
    assert (D : (k' = k /\ tget i (write_cells cs (nth k M TLeaf) (key o)) = Some c /\
                 (Zpos (key o) <= Zpos i < Zpos (key o) + zlen cs)) \/
                (tget i (nth k' M TLeaf) = Some c /\ (k' <> k \/ ~ (Zpos (key o) <= Zpos i < Zpos (key o) + zlen cs)))).
    { destruct (Nat.eq_dec k' k) as [->|NK].
      - destruct (nth_upd_eq (write_cells cs (nth k M TLeaf) (key o)) M k TLeaf) as [Q|[Q _]]; rewrite Q in G.
        + pose proof G as G'. rewrite write_cells_get in G'. destruct (_ && _) eqn:B.
          * left. split; [reflexivity|]. split; [exact G|lia].
          * right. split; [exact G'|]. right. lia.
        + rewrite tget_leaf in G. discriminate.
      - rewrite nth_upd_ne in G by exact NK. right. auto. }
    clear G. destruct D as [(-> & G & B)|[G B]].
    + rewrite write_cells_get in G. replace (_ && _) with true in G by lia.
      set (q := Z.to_nat (Zpos i - Zpos (key o))) in *.
      assert (QL : (q < length cs)%nat) by (apply nth_error_Some; congruence).
      assert (OI : offp i = o + 4 * Z.of_nat q).
      { rewrite <- (key_off o) by assumption. unfold offp, q. lia. }
      split; [lia|].
      assert (CR : crel c ((nth q ws 0) mod 2 ^ 32)).
      { clear - F G. clearbody q. revert q G. induction F; intros [|q] G; cbn [nth nth_error] in *; try discriminate.
        - injection G as <-. assumption.
        - apply IHF. exact G. }
      assert (B4 : forall b, (b < 4)%nat -> put m (ad k o) (to_bytes ws) (ad k (offp i + Z.of_nat b)) =
                   nth b (le_bytes 4 (nth q ws 0)) 0).
      { intros b Hb. rewrite <- nth_to_bytes by lia. rewrite <- (ad_add k (offp i)).
        rewrite OI, <- (ad_add k o). rewrite w64_add.
        rewrite <- Z.add_assoc. rewrite put_in by (unfold zlen in *; lia). f_equal. lia. }
      assert (MW : mw (put m (ad k o) (to_bytes ws)) k (offp i) = (nth q ws 0) mod 2 ^ 32).
      { unfold mw. rewrite <- (Z.add_0_r (offp i)) at 1.
        change 0 with (Z.of_nat 0) at 1. change 1 with (Z.of_nat 1) at 1. change 2 with (Z.of_nat 2) at 1. change 3 with (Z.of_nat 3) at 1.
        rewrite !B4 by lia. rewrite <- (le_val_bytes 4). reflexivity. }
      rewrite MW. exact CR.
    + apply HM in G as [G1 G2]. split; [exact G1|]. assert (P : 0 <= offp i) by (unfold offp; lia).
      assert (FAR : k' <> k \/ offp i + 4 <= o \/ o + 4 * zlen cs <= offp i).
      { destruct B as [B|B]; [left; exact B|right]. rewrite <- (key_off o) by assumption. unfold offp. lia. }
      unfold mw. rewrite !NE by lia. exact G2.
  - intros x X. rewrite <- HF by exact X. apply put_out. intros j J. rewrite ad_add. apply X.
    unfold zlen in *. lia.
Qed.

(** ** Registers and operands *)
Lemma wlow_sound g v : grel g v -> wrel env (wlow g) (w32 v).
Proof.
  destruct g as [w|k o|c]; cbn [grel wlow]; intros G; [apply wrel_w32; exact G|exact Logic.I|].
  destruct G as [-> G]. destruct ((0 <=? c) && (c <? 4294967296)) eqn:C; [|exact Logic.I].
  change 4294967296 with (2 ^ 32) in C. unfold w32. rewrite Z.mod_small by lia. apply wrel_const. lia.
Qed.
Lemma sread32_sound S st o w : Rel S st -> sread32 rgs S o = Some w ->
  exists v, read32 RD sect st o = Some v /\ wrel env w v.
Proof.
  intros R E. destruct o as [r|a]; cbn [sread32 read32] in *.
  - apply some_inj in E. subst w. eexists. split; [reflexivity|]. apply wlow_sound, getg_rel, R.
  - destruct (sload rgs S 1 a) as [[|x [|y l]]|] eqn:L; try discriminate. apply some_inj in E. subst x.
    apply (sload1_sound S st a w R L).
Qed.
Lemma divide_land n x : 0 <= n -> Z.land x (2 ^ n - 1) = 0 -> (2 ^ n | x).
Proof.
  intros N H. rewrite Z.sub_1_r, <- Z.ones_equiv, Z.land_ones in H by exact N.
  apply Z.mod_divide; [|exact H]. pose proof (Z.pow_pos_nonneg 2 n). lia.
Qed.
Lemma w64_divide n x : 0 <= n <= 64 -> (2 ^ n | x) -> (2 ^ n | w64 x).
Proof.
  intros N D. unfold w64. rewrite Z.mod_eq by lia. apply Z.divide_sub_r; [exact D|].
  apply Z.divide_mul_l. exists (2 ^ (64 - n)). rewrite <- Z.pow_add_r by lia. f_equal. lia.
Qed.
Lemma salign_ok_sound S st vk a : Rel S st -> salign_ok rgs vk S a = true -> aligned_ok vk (ea sect st a) = true.
Proof.
  intros R E. unfold salign_ok in E. destruct (sea S a) as [[k o]|] eqn:A; [|discriminate].
  rewrite (sea_sound S st a k o R A). unfold aligned_ok. apply Z.eqb_eq.
  assert (Q : exists n, 0 <= n <= 64 /\ 4 * Z.of_nat (dwords vk) = 2 ^ n) by (destruct vk; [exists 4|exists 5|exists 4]; cbn; lia).
  destruct Q as (n & N & Q). rewrite Q in *. unfold salign in E.
  apply andb_prop in E as [E1 E2]. apply Z.eqb_eq in E1, E2.
  apply divide_land in E1; [|lia]. apply divide_land in E2; [|lia].
  apply Z.mod_divide; [pose proof (Z.pow_pos_nonneg 2 n); lia|]. apply w64_divide; [exact N|].
  apply Z.divide_add_r; [|exact E2]. eapply Z.divide_trans; [exact E1|]. apply (L_align HL).
Qed.
Lemma sreadv_sound S st vk o l : Rel S st -> ovok o = true -> sreadv rgs vk S o = Some l ->
  exists vs, readv RD sect vk st o = Some vs /\ operand env vk l vs.
Proof.
  intros R O E. destruct o as [v|a]; cbn [sreadv readv ovok] in *.
  - apply some_inj in E. subst l. eexists. split; [reflexivity|]. left. apply getx_rel; assumption.
  - assert (Q : sload rgs S (dwords vk) a = Some l ->
      exists vs, load_vec RD vk (mem st) (ea sect st a) = Some vs /\ operand env vk l vs).
    { intros L. destruct (sload_sound S st (dwords vk) a l R L) as (vs & A & V).
      exists vs. split; [exact A|right; exact V]. }
    cbv zeta. destruct vk; auto. destruct (salign_ok rgs SSE S a) eqn:C; [|discriminate].
    rewrite (salign_ok_sound S st SSE a R C). auto.
Qed.
Lemma salu_sound op T x y T' z : salu op T x y = (T', z) ->
  ext T T' /\ (Sat env T' -> forall vx vy, wrel env x vx -> wrel env y vy -> wrel env z (alu32 op vx vy)).
Proof.
  destruct op; cbn [salu alu32]; intros E.
  - apply pair_equal_spec in E as [<- <-]. split; [apply ext_refl|]. auto.
  - apply sadd_sound in E as [X E]. split; [exact X|]. intros; apply E; assumption.
  - apply sxor_sound in E as [X E]. split; [exact X|]. intros; apply E; assumption.
  - apply sand_sound in E as [X E]. split; [exact X|]. intros; apply E; assumption.
  - apply sor_sound in E as [X E]. split; [exact X|]. intros; apply E; assumption.
Qed.
Lemma goff_sound g v d : grel g v -> grel (goff g d) (w64 (v + d)).
Proof.
  destruct g as [w|k o|c]; cbn [grel goff]; intros G; [exact Logic.I| |].
  - subst v. apply ad_add.
  - destruct G as [-> _]. split; [reflexivity|apply w64_range].
Qed.

(** ** Instructions *)
Lemma Rel_upd S st g v f m T gs ys fl mm :
  Rel S st -> Forall2 grel g gs -> length v = 16%nat -> Forall2 (vrel env 8) v ys -> frel f fl ->
  mrel m mm -> framed mm ->
  Rel (upd_all S g v f m T) {| pc := pc st + 1; gpr := gs; ymm := ys; flags := fl; mem := mm |}.
Proof.
  intros R G L V F M FR. constructor; cbn [upd_all spc sgprs svecs sfl smem pc gpr ymm flags mem]; auto.
  pose proof (R_pc _ _ R) as P. destruct (spc S) as [w|k o|c]; cbn [advance pcrel] in *; auto. lia.
Qed.
Lemma Rel_setg S st T f fl r x v : Rel S st -> frel f fl -> grel x v ->
  Rel (set_g S T f r x)
      {| pc := pc st + 1; gpr := upd (gpr st) r v; ymm := ymm st; flags := fl; mem := mem st |}.
Proof.
  intros R F G. destruct R as [R1 R2 R3 R4 R5 R6 R7] eqn:ER. apply Rel_upd; auto. apply F2_upd; assumption.
Qed.
Lemma upd_length {A} (x : A) : forall l i, length (upd l i x) = length l.
Proof. induction l as [|y l IH]; intros [|i]; cbn [upd length]; auto. Qed.
Lemma Rel_setv S st T r x v : Rel S st -> vrel env 8 x v ->
  Rel (set_v S T r x)
      {| pc := pc st + 1; gpr := gpr st; ymm := upd (ymm st) r v; flags := flags st; mem := mem st |}.
Proof.
  intros R G. destruct R as [R1 R2 R3 R4 R5 R6 R7] eqn:ER. apply Rel_upd; auto.
  - rewrite upd_length. exact R3.
  - apply F2_upd; assumption.
Qed.
Lemma Rel_setm S st M m : Rel S st -> mrel M m -> framed m ->
  Rel (set_m S M)
      {| pc := pc st + 1; gpr := gpr st; ymm := ymm st; flags := flags st; mem := m |}.
Proof. intros R A B. destruct R as [R1 R2 R3 R4 R5 R6 R7] eqn:ER. apply Rel_upd; auto. Qed.
Lemma le_bytes_8 x : le_bytes 8 x = to_bytes [x; x / 2 ^ 32].
Proof. cbn [to_bytes flat_map le_bytes app]. rewrite !Z.div_div by lia. reflexivity. Qed.
Lemma sstore64_sound S st k o g v M : Rel S st -> grel g v -> sstore64 rgs S (k, o) g = Some M ->
  exists m, store WR (mem st) (ad k o) (le_bytes 8 v) = Some m /\ mrel M m /\ framed m.
Proof.
  intros R G E. unfold sstore64 in E. destruct (in_range rgs k o 8 && (o + 8 <=? rwr (rg k))) eqn:C; [|discriminate].
  apply andb_prop in C as [C W]. apply Z.leb_le in W. apply some_inj in E. subst M. rewrite le_bytes_8.
  apply (store_sound (smem S) (mem st) k o [CLo g; CHi g]); auto.
  - exact (R_mem _ _ R).
  - exact (R_frame _ _ R).
  - constructor; [exists v; auto|]. constructor; [exists v; auto|]. constructor.
Qed.
Lemma F2_cd l vs : Forall2 (wrel env) l vs -> Forall2 (fun c w => crel c (w mod 2 ^ 32)) (map CD l) vs.
Proof. induction 1; cbn [map]; constructor; auto. cbn [crel]. apply wrel_w32. assumption. Qed.
Lemma sstore_sound S st l vs a M : Rel S st -> Forall2 (wrel env) l vs -> sstore rgs S l a = Some M ->
  exists m, store WR (mem st) (ea sect st a) (to_bytes vs) = Some m /\ mrel M m /\ framed m.
Proof.
  intros R F E. unfold sstore in E. destruct (sea S a) as [[k o]|] eqn:A; [|discriminate].
  destruct (in_range _ _ _ _ && _) eqn:C; [|discriminate]. apply andb_prop in C as [C W]. apply Z.leb_le in W.
  apply some_inj in E. subst M. rewrite (sea_sound S st a k o R A), write_words_cells.
  apply store_sound; auto.
  - exact (R_mem _ _ R).
  - exact (R_frame _ _ R).
  - unfold zlen. rewrite map_length. exact C.
  - unfold zlen. rewrite map_length. exact W.
  - apply F2_cd. exact F.
Qed.
Lemma spush_sound S st g v S' : Rel S st -> grel g v -> spush rgs g S = Some S' ->
  stbl S' = stbl S /\ sconds S' = sconds S /\ spc S' = spc S /\
  exists st', push WR v st = Some st' /\ Rel S' st' /\ pc st' = pc st.
Proof.
  intros R G E. unfold spush in E. pose proof (getg_rel S st rsp R) as P.
  destruct (getg S rsp) as [w|k o|c]; try discriminate. cbn [grel] in P.
  destruct (sstore64 rgs S (k, o - 8) g) as [M|] eqn:Q; [|discriminate]. cbn [option_map] in E.
  apply some_inj in E. subst S'. do 3 (split; [reflexivity|]).
  destruct (sstore64_sound S st k (o - 8) g v M R G Q) as (m & A & B & C).
  unfold push. cbv zeta. rewrite P.
  replace (w64 (ad k o - 8)) with (ad k (o - 8)) by (symmetry; exact (ad_add k o (-8))).
  rewrite A. cbn [obind]. eexists. split; [reflexivity|]. split; [|reflexivity].
  destruct R as [R1 R2 R3 R4 R5 R6 R7] eqn:ER.
  constructor; cbn [spc sgprs svecs sfl smem pc gpr ymm flags mem setr setm]; auto.
  apply F2_upd; [exact R2|]. reflexivity.
Qed.
Lemma spop_sound S st g gs : Rel S st -> spop rgs S = Some (g, gs) ->
  exists v, load_int RD (mem st) (getr st rsp) 8 = Some v /\ grel g v /\ pcrel g v /\
  Forall2 grel gs (upd (gpr st) rsp (w64 (getr st rsp + 8))).
Proof.
  intros R E. unfold spop in E. pose proof (getg_rel S st rsp R) as P.
  destruct (getg S rsp) as [w|k o|c]; try discriminate. cbn [grel] in P.
  destruct (sload64 rgs S (k, o)) as [g'|] eqn:Q; [|discriminate]. injection E as -> <-.
  destruct (sload64_sound S st k o g R Q) as (v & A & B & _ & D). rewrite P. exists v.
  split; [exact A|]. split; [exact B|]. split; [exact D|]. apply F2_upd; [exact (R_gpr _ _ R)|].
  cbn [grel]. apply ad_add.
Qed.
Lemma sjump_sound l S st S' : Rel S st -> sjump (mk_labels code 0) l S = Some S' ->
  stbl S' = stbl S /\ sconds S' = sconds S /\ exists st', jump code l st = Some st' /\ Rel S' st'.
Proof.
  intros R E. unfold sjump in E. rewrite assoc_labels in E. unfold jump.
  destruct (find_label l code 0) as [p|]; [|discriminate]. cbn [option_map] in *. apply some_inj in E. subst S'.
  do 2 (split; [reflexivity|]). eexists. split; [reflexivity|].
  destruct R as [R1 R2 R3 R4 R5 R6 R7] eqn:ER. constructor; auto. reflexivity.
Qed.
Lemma sjump_tbl l S S' : sjump (mk_labels code 0) l S = Some S' -> stbl S' = stbl S /\ sconds S' = sconds S.
Proof.
  unfold sjump. destruct (assoc _ _); [|discriminate]. cbn [option_map]. intros E. apply some_inj in E. subst S'. auto.
Qed.
Lemma Rel_snext S st : Rel S st -> Rel (snext S) (next st).
Proof. intros R. destruct R as [R1 R2 R3 R4 R5 R6 R7] eqn:ER. apply Rel_upd; auto. Qed.
Definition jf (j : jcc) (f : flagset) : bool := flag_of j f.
Lemma sjump_if_sound j l S S' : sjump_if (mk_labels code 0) j l S = Some S' ->
  stbl S' = stbl S /\ (exists cs, sconds S' = cs ++ sconds S) /\
  forall st, Forall cond_ok (sconds S') -> Rel S st ->
  exists st', jump_if code (flag_of j) l st = Some st' /\ Rel S' st'.
Proof.
  intros E. unfold sjump_if in E. destruct (sfl S) as [f|] eqn:F; [|discriminate].
  assert (ORA : match soracle S with
          | [] => None
          | b :: o => if b then sjump (mk_labels code 0) l (assume S f j b o) else Some (snext (assume S f j b o))
          end = Some S' ->
     stbl S' = stbl S /\ (exists cs, sconds S' = cs ++ sconds S) /\
     forall st, Forall cond_ok (sconds S') -> Rel S st ->
     exists st', jump_if code (flag_of j) l st = Some st' /\ Rel S' st').
  { clear E. intros E. destruct (soracle S) as [|b o]; [discriminate|].
    assert (Q : stbl S' = stbl S /\ sconds S' = (f, j, b) :: sconds S).
    { destruct b; [apply sjump_tbl in E as [-> ->]; auto|]. apply some_inj in E. subst S'. auto. }
    destruct Q as [Q1 Q2]. split; [exact Q1|]. split; [exists [(f, j, b)]; exact Q2|].
    intros st C R. rewrite Q2 in C. inversion C as [|? ? C1 C2]; subst. clear C.
    assert (RA : Rel (assume S f j b o) st) by (destruct R as [R1 R2 R3 R4 R5 R6 R7] eqn:ER; constructor; auto).
    assert (FL : exists fl, flags st = Some fl /\ flag_of j fl = b).
    { pose proof (R_fl _ _ R) as RF. rewrite F in RF. destruct f as [g n|g]; destruct RF as (v & G & V);
        eexists; (split; [exact V|]); apply C1; exact G. }
    destruct FL as (fl & FL & FB). unfold jump_if. rewrite FL. cbn [obind]. rewrite FB. destruct b.
    - destruct (sjump_sound l _ st S' RA E) as (_ & _ & st' & J & R'). exists st'. auto.
    - apply some_inj in E. subst S'. exists (next st). split; [reflexivity|]. apply Rel_snext. exact RA. }
  destruct f as [[w|k o|c] n|g]; [exact (ORA E)|exact (ORA E)| |exact (ORA E)]. clear ORA.
  assert (Q : stbl S' = stbl S /\ sconds S' = sconds S).
  { destruct (flag_of j (cmp_flags c n)); [apply sjump_tbl in E; exact E|]. apply some_inj in E. subst S'. auto. }
  destruct Q as [Q1 Q2]. split; [exact Q1|]. split; [exists []; exact Q2|]. intros st _ R.
  pose proof (R_fl _ _ R) as RF. rewrite F in RF. destruct RF as (v & [-> _] & V).
  unfold jump_if. rewrite V. cbn [obind]. destruct (flag_of j (cmp_flags c n)).
  - destruct (sjump_sound l S st S' R E) as (_ & _ & st' & J & R'). exists st'. auto.
  - apply some_inj in E. subst S'. exists (next st). split; [reflexivity|]. apply Rel_snext. exact R.
Qed.

Definition simulates (S S' : sstate) (f : state -> option state) : Prop :=
  ext (stbl S) (stbl S') /\ (exists cs, sconds S' = cs ++ sconds S) /\
  (Sat env (stbl S') -> Forall cond_ok (sconds S') -> forall st, Rel S st ->
   exists st', f st = Some st' /\ Rel S' st').
Lemma sim_intro S S' f : ext (stbl S) (stbl S') -> sconds S' = sconds S ->
  (Sat env (stbl S') -> forall st, Rel S st -> exists st', f st = Some st' /\ Rel S' st') -> simulates S S' f.
Proof. intros X C H. split; [exact X|]. split; [exists []; exact C|]. intros SA _ st R. exact (H SA st R). Qed.
Lemma spush_tbl g S S' : spush rgs g S = Some S' -> stbl S' = stbl S /\ sconds S' = sconds S.
Proof.
  unfold spush. destruct (getg S rsp) as [w|k o|c]; try discriminate.
  destruct (sstore64 rgs S (k, o - 8) g); [|discriminate]. cbn [option_map]. intros E. apply some_inj in E. subst S'. auto.
Qed.
Lemma and_mask k o : (32 | bv k) -> Z.land (ad k o) align_mask = ad k (o - Z.land o 31).
Proof.
  intros D. change 31 with (Z.ones 5). rewrite Z.land_ones by lia. change (2 ^ 5) with 32.
  assert (A : Z.land (ad k o) align_mask = 32 * (ad k o / 32)).
  { unfold ad. pose proof (w64_range (bv k + o)) as R. set (x := w64 (bv k + o)) in *. clearbody x.
    change align_mask with (Z.shiftl (Z.ones 59) 5). change 32 with (2 ^ 5).
    rewrite Z.mul_comm, <- Z.shiftl_mul_pow2, <- Z.shiftr_div_pow2 by lia.
    apply Z.bits_inj'. intros i I. rewrite Z.land_spec, !Z.shiftl_spec by exact I.
    destruct (i <? 5) eqn:C.
    - rewrite !(Z.testbit_neg_r _ (i - 5)) by lia. apply andb_false_r.
    - rewrite Z.shiftr_spec by lia. replace (i - 5 + 5) with i by lia. destruct (i <? 64) eqn:C2.
      + rewrite Z.ones_spec_low by lia. apply andb_true_r.
      + rewrite Z.ones_spec_high by lia. rewrite <- (Z.mod_small x (2 ^ 64)) by exact R.
        rewrite Z.mod_pow2_bits_high by lia. reflexivity. }
  rewrite A. clear A. unfold ad, w64. destruct D as [q ->]. lia.
Qed.

Ltac sim := apply sim_intro; [cbn [set_g set_v set_m snext upd_all stbl]; first [extt|apply ext_refl]|reflexivity|intros SA st R; cbn [exec]].
Ltac done x := exists x; split; [reflexivity|].
Lemma sexec_sound i S S' : sexec rgs (mk_labels code 0) i S = Some S' -> instr_ok i = true ->
  simulates S S' (exec RD WR sect code i).
Proof.
  intros E OK. destruct i; cbn [sexec instr_ok exec] in *.
  - (* IAlu32 *)
    destruct (sread32 rgs S s) as [y|] eqn:Y; [|discriminate].
    destruct (salu op (stbl S) (wlow (getg S d)) y) as [T z] eqn:A. apply salu_sound in A as [X A].
    apply some_inj in E. subst S'. sim.
    destruct (sread32_sound S st s y R Y) as (v & V & W). rewrite V. cbn [obind]. eexists. split; [reflexivity|].
    apply (Rel_setg S st); [exact R|destruct op; try exact Logic.I; exact (R_fl _ _ R)|]. cbn [grel]. apply A; auto.
    apply wlow_sound, getg_rel, R.
  - (* IStore32 *)
    destruct (sstore rgs S [wlow (getg S s)] a) as [M|] eqn:Y; [|discriminate]. apply some_inj in E. subst S'. sim.
    destruct (sstore_sound S st [wlow (getg S s)] [w32 (getr st s)] a M R) as (m & A & B & C); [|exact Y|].
    + constructor; [|constructor]. apply wlow_sound, getg_rel, R.
    + replace (le_bytes 4 (getr st s)) with (to_bytes [w32 (getr st s)]).
      * rewrite A. cbn [obind]. eexists. split; [reflexivity|]. apply (Rel_setm S st); assumption.
      * cbn [to_bytes flat_map]. rewrite app_nil_r. exact (le_bytes_mod 4 (getr st s)).
  - (* IShld32 *)
    destruct ((0 <? n) && (n <? 32)) eqn:N; [|discriminate].
    destruct (sshld n (stbl S) (wlow (getg S d)) (wlow (getg S s))) as [T z] eqn:A.
    apply (sshld_sound n ltac:(lia)) in A as [X A]. apply some_inj in E. subst S'. sim.
    eexists. split; [reflexivity|]. apply (Rel_setg S st); [exact R|exact Logic.I|]. cbn [grel].
    apply A; [exact SA| |]; apply wlow_sound, getg_rel, R.
  - (* IBswap32 *)
    destruct (sbswap (stbl S) (wlow (getg S d))) as [T z] eqn:A. apply sbswap_sound in A as [X A].
    apply some_inj in E. subst S'. sim. eexists. split; [reflexivity|].
    apply (Rel_setg S st); [exact R|exact (R_fl _ _ R)|]. cbn [grel].
    replace (le_bytes 4 (getr st d)) with (le_bytes 4 (w32 (getr st d))) by exact (le_bytes_mod 4 (getr st d)).
    apply A; [exact SA|]. apply wlow_sound, getg_rel, R.
  - (* IPush *)
    destruct (spush rgs (getg S r) S) as [S1|] eqn:P; [|discriminate]. cbn [option_map] in E. apply some_inj in E. subst S'.
    destruct (spush_tbl _ _ _ P) as [P1 P2].
    apply sim_intro; [cbn [snext upd_all stbl]; rewrite P1; apply ext_refl|exact P2|].
    intros SA st R. cbn [exec]. destruct (spush_sound S st _ _ S1 R (getg_rel S st r R) P) as (_ & _ & _ & st1 & A & B & _).
    rewrite A. cbn [obind]. eexists. split; [reflexivity|]. apply Rel_snext. exact B.
  - (* IPop *)
    destruct (spop rgs S) as [[g gs]|] eqn:P; [|discriminate]. apply some_inj in E. subst S'. sim.
    destruct (spop_sound S st g gs R P) as (v & A & B & _ & C). rewrite A. cbn [obind]. eexists. split; [reflexivity|].
    destruct R as [R1 R2 R3 R4 R5 R6 R7] eqn:ER. apply (Rel_upd S st); auto. apply F2_upd; assumption.
  - (* IMov64 *)
    apply some_inj in E. subst S'. sim. eexists. split; [reflexivity|].
    apply (Rel_setg S st); [exact R|exact (R_fl _ _ R)|]. apply getg_rel, R.
  - (* ILoad64 *)
    destruct (sea S a) as [[k o]|] eqn:A; [|discriminate]. destruct (sload64 rgs S (k, o)) as [g|] eqn:L; [|discriminate].
    cbn [option_map] in E. apply some_inj in E. subst S'. sim. rewrite (sea_sound S st a k o R A).
    destruct (sload64_sound S st k o g R L) as (v & V & G & _). rewrite V. cbn [obind]. eexists. split; [reflexivity|].
    apply (Rel_setg S st); [exact R|exact (R_fl _ _ R)|exact G].
  - (* IStore64 *)
    destruct (sea S a) as [[k o]|] eqn:A; [|discriminate]. destruct (sstore64 rgs S (k, o) (getg S s)) as [M|] eqn:L; [|discriminate].
    cbn [option_map] in E. apply some_inj in E. subst S'. sim. rewrite (sea_sound S st a k o R A).
    destruct (sstore64_sound S st k o _ _ M R (getg_rel S st s R) L) as (m & B & C & D). rewrite B. cbn [obind].
    eexists. split; [reflexivity|]. apply (Rel_setm S st); assumption.
  - (* IAdd64 *)
    apply some_inj in E. subst S'. sim. eexists. split; [reflexivity|].
    apply (Rel_setg S st); [exact R|exact Logic.I|]. apply goff_sound, getg_rel, R.
  - (* ISub64 *)
    apply some_inj in E. subst S'. sim. eexists. split; [reflexivity|].
    apply (Rel_setg S st); [exact R|exact Logic.I|]. exact (goff_sound _ _ (- n) (getg_rel S st d R)).
  - (* IXor64 *)
    apply some_inj in E. subst S'. sim. eexists. split; [reflexivity|].
    apply (Rel_setg S st); [exact R|exact Logic.I|]. destruct (Nat.eqb d s) eqn:Q; [|exact Logic.I].
    apply Nat.eqb_eq in Q. subst s. rewrite Z.lxor_nilpotent. cbn [grel]. lia.
  - (* IAnd64 *)
    destruct (sea S a) as [[k o]|] eqn:A; [|discriminate]. destruct (sload64 rgs S (k, o)) as [g|] eqn:L; [|discriminate].
    destruct g as [w|k1 o1|m]; try discriminate. destruct (getg S d) as [w|k1 o1|c] eqn:G; try discriminate.
    destruct (_ && _) eqn:C in E; [|discriminate]. apply some_inj in E. subst S'. sim. rewrite (sea_sound S st a k o R A).
    destruct (sload64_sound S st k o _ R L) as (v & V & [-> _] & _). rewrite V. cbn [obind]. eexists. split; [reflexivity|].
    apply (Rel_setg S st); [exact R|exact Logic.I|]. pose proof (getg_rel S st d R) as GD. rewrite G in GD. cbn [grel] in *. rewrite GD.
    apply andb_prop in C as [C1 C2]. apply Z.eqb_eq in C1, C2. subst m. apply and_mask.
    eapply Z.divide_trans; [|apply (L_align HL)]. apply (divide_land 5); [lia|]. exact C2.
  - (* ILea *)
    destruct (sea S a) as [[k o]|] eqn:A; [|discriminate]. apply some_inj in E. subst S'. sim. eexists. split; [reflexivity|].
    apply (Rel_setg S st); [exact R|exact (R_fl _ _ R)|]. cbn [grel]. apply (sea_sound S st a k o R A).
  - (* ICmp64 *)
    apply some_inj in E. subst S'. sim. eexists. split; [reflexivity|].
    destruct R as [R1 R2 R3 R4 R5 R6 R7] eqn:ER. apply (Rel_upd S st); auto.
    exists (getr st r). split; [apply getg_rel, R|reflexivity].
  - (* ITest64 *)
    destruct (Nat.eqb r s) eqn:Q; [|discriminate]. apply Nat.eqb_eq in Q. subst s.
    apply some_inj in E. subst S'. sim. eexists. split; [reflexivity|].
    destruct R as [R1 R2 R3 R4 R5 R6 R7] eqn:ER. apply (Rel_upd S st); auto.
    exists (getr st r). split; [apply getg_rel, R|reflexivity].
  - (* IV *)
    apply andb_prop in OK as [OK O3]. apply andb_prop in OK as [O1 O2].
    destruct (sreadv rgs k S s2) as [b|] eqn:B; [|discriminate].
    destruct (svbin k op (stbl S) (getx S s1) b) as [T x] eqn:A. apply svbin_sound in A as [X A].
    apply some_inj in E. subst S'. sim. destruct (sreadv_sound S st k s2 b R O3 B) as (vs & V & W).
    rewrite V. cbn [obind]. eexists. split; [reflexivity|]. apply (Rel_setv S st); [exact R|].
    apply vrel_merge; [apply getx_rel; assumption|]. apply A; auto. apply getx_rel; assumption.
  - (* IVu *)
    apply andb_prop in OK as [O1 O2]. destruct (uop_ok op) eqn:U; [|discriminate].
    destruct (svun k op (stbl S) (getx S s)) as [T x] eqn:A. apply (svun_sound k op _ _ _ _ U) in A as [X A].
    apply some_inj in E. subst S'. sim. eexists. split; [reflexivity|]. apply (Rel_setv S st); [exact R|].
    apply vrel_merge; [apply getx_rel; assumption|]. apply A; auto. apply getx_rel; assumption.
  - (* IVLoad *)
    cbv zeta. destruct (aligned && negb (salign_ok rgs k S a)) eqn:C; [discriminate|].
    destruct (sload rgs S (dwords k) a) as [x|] eqn:L; [|discriminate]. cbn [option_map] in E. apply some_inj in E. subst S'. sim.
    assert (AL : aligned && negb (aligned_ok k (ea sect st a)) = false).
    { destruct aligned; [|reflexivity]. cbn [andb] in *. apply negb_false_iff in C.
      rewrite (salign_ok_sound S st k a R C). reflexivity. }
    rewrite AL. destruct (sload_sound S st (dwords k) a x R L) as (vs & A & V). unfold load_vec. rewrite A. cbn [obind].
    eexists. split; [reflexivity|]. apply (Rel_setv S st); [exact R|]. apply vrel_merge; [apply getx_rel; assumption|exact V].
  - (* IVStore *)
    cbv zeta. destruct (aligned && negb (salign_ok rgs k S a)) eqn:C; [discriminate|].
    destruct (sstore rgs S (firstn (dwords k) (getx S s)) a) as [M|] eqn:L; [|discriminate]. cbn [option_map] in E. apply some_inj in E. subst S'. sim.
    assert (AL : aligned && negb (aligned_ok k (ea sect st a)) = false).
    { destruct aligned; [|reflexivity]. cbn [andb] in *. apply negb_false_iff in C.
      rewrite (salign_ok_sound S st k a R C). reflexivity. }
    rewrite AL. destruct (sstore_sound S st (firstn (dwords k) (getx S s)) (firstn (dwords k) (getv st s)) a M R) as (m & A & B & D); [|exact L|].
    + apply (vrel_firstn env 8); [apply getx_rel; assumption|destruct k; cbn; lia].
    + rewrite A. cbn [obind]. eexists. split; [reflexivity|]. apply (Rel_setm S st); assumption.
  - (* IVInsert128 *)
    apply andb_prop in OK as [O1 O2].
    destruct (sload rgs S 4 a) as [x|] eqn:L; [|discriminate]. cbn [option_map] in E. apply some_inj in E. subst S'. sim.
    destruct (sload_sound S st 4 a x R L) as (vs & A & V). unfold load_vec. cbn [dwords]. rewrite A. cbn [obind].
    eexists. split; [reflexivity|]. apply (Rel_setv S st); [exact R|]. pose proof (getx_rel S st s R O2) as G.
    destruct (Z.testbit i 0); apply (vrel_app env 4 4); auto using vrel_lo, vrel_hi.
  - (* IVPerm2f128 *)
    apply andb_prop in OK as [OK O3]. apply andb_prop in OK as [O1 O2]. apply some_inj in E. subst S'. sim.
    eexists. split; [reflexivity|]. apply (Rel_setv S st); [exact R|].
    apply (vrel_app env 4 4); apply shalf_sound; apply getx_rel; assumption.
  - (* ISha256rnds2 *)
    apply andb_prop in OK as [O1 O2].
    destruct (ssha256rnds2 (stbl S) (getx S d) (getx S s) (getx S xmm0)) as [T x] eqn:A.
    apply ssha256rnds2_sound in A as [X A]. apply some_inj in E. subst S'. sim.
    eexists. split; [reflexivity|]. apply (Rel_setv S st); [exact R|].
    apply (vrel_merge env SSE); [apply getx_rel; assumption|].
    apply A; [exact SA| | |]; apply getx_rel; auto.
  - (* ILabel *)
    apply some_inj in E. subst S'. sim. eexists. split; [reflexivity|]. apply Rel_snext, R.
  - (* IJmp *)
    destruct (sjump_tbl _ _ _ E) as [Q1 Q2]. apply sim_intro; [rewrite Q1; apply ext_refl|exact Q2|].
    intros SA st R. cbn [exec]. apply (sjump_sound l S st S' R E).
  - apply (sjump_if_sound JL) in E as (Q1 & Q2 & Q3). split; [rewrite Q1; apply ext_refl|]. split; [exact Q2|].
    intros _ C st R. exact (Q3 st C R).
  - apply (sjump_if_sound JZ) in E as (Q1 & Q2 & Q3). split; [rewrite Q1; apply ext_refl|]. split; [exact Q2|].
    intros _ C st R. exact (Q3 st C R).
  - apply (sjump_if_sound JB) in E as (Q1 & Q2 & Q3). split; [rewrite Q1; apply ext_refl|]. split; [exact Q2|].
    intros _ C st R. exact (Q3 st C R).
  - (* ICall *)
    destruct (spc S) as [w|k o|p] eqn:P; try discriminate. destruct (_ && _) eqn:B in E; [|discriminate].
    destruct (spush rgs (SC (p + 1)) S) as [S1|] eqn:Q; [|discriminate].
    destruct (spush_tbl _ _ _ Q) as [P1 P2]. destruct (sjump_tbl _ _ _ E) as [Q1 Q2].
    apply sim_intro; [rewrite Q1, P1; apply ext_refl|congruence|]. intros SA st R. cbn [exec].
    pose proof (R_pc _ _ R) as PC. rewrite P in PC. cbn [pcrel] in PC. rewrite PC.
    destruct (spush_sound S st (SC (p + 1)) (p + 1) S1 R) as (_ & _ & _ & st1 & A & C & _); [|exact Q|].
    { cbn [grel]. split; [reflexivity|]. change (2 ^ 64) with 18446744073709551616. lia. }
    rewrite A. cbn [obind]. destruct (sjump_sound l S1 st1 S' C E) as (_ & _ & st' & J & R'). exists st'. auto.
  - (* IRet *)
    destruct (spop rgs S) as [[g gs]|] eqn:P; [|discriminate]. apply some_inj in E. subst S'. sim.
    destruct (spop_sound S st g gs R P) as (v & A & B & D & C). rewrite A. cbn [obind]. eexists. split; [reflexivity|].
    destruct R as [R1 R2 R3 R4 R5 R6 R7] eqn:ER. constructor; auto.
Qed.
Lemma code_ok p i : fetch code p = Some i -> instr_ok i = true.
Proof.
  unfold fetch. destruct (0 <=? p); [|discriminate]. intros E. apply nth_error_In in E.
  pose proof (L_code HL) as C. rewrite forallb_forall in C. exact (C i E).
Qed.
(** the part of the code that is executed *)
Variables lo len : nat.
Notation prog := (mk_prog (firstn len (skipn lo code)) (Pos.of_succ_nat lo) TLeaf).
Notation walk1 := (walk RD WR sect code (Z.of_nat lo) (Z.of_nat lo + Z.of_nat len)).
Lemma sstep_sound S S' : sstep rgs (mk_labels code 0) prog S = Some S' ->
  simulates S S' (walk1 1).
Proof.
  unfold sstep. destruct (sfetch _ (spc S)) as [i|] eqn:F; [|discriminate]. intros E.
  destruct (spc S) as [w|k o|p] eqn:P; try discriminate. apply sfetch_sound in F as [F IN].
  destruct (sexec_sound i S S' E (code_ok p i F)) as (A & B & C).
  split; [exact A|]. split; [exact B|]. intros SA CO st R. destruct (C SA CO st R) as (st' & X & Y).
  exists st'. split; [|exact Y]. pose proof (R_pc _ _ R) as PC. rewrite P in PC. cbn [pcrel] in PC.
  cbn [walk]. unfold step. rewrite PC, F. cbn [obind].
  replace ((Z.of_nat lo <=? p) && (p <? Z.of_nat lo + Z.of_nat len)) with true by lia. rewrite X. reflexivity.
Qed.
(** ** What can be seen of a run *)
Definition adp (x : nat * Z) : Z := ad (fst x) (snd x).
Definition seen (x : Z * list (nat * Z)) : Z * list Z := (fst x, map adp (snd x)).
Definition in_regions (x : Z * list (nat * Z)) : Prop := Forall (fun ko : nat * Z => 0 < rsize (rg (fst ko))) (snd x).
Lemma saddr_sound S st a k o n : Rel S st -> sea S a = Some (k, o) -> in_range rgs k o n = true -> 0 < n ->
  [ea sect st a] = map adp (saddr S a) /\ Forall (fun ko : nat * Z => 0 < rsize (rg (fst ko))) (saddr S a).
Proof.
  intros R E I N. apply in_range_spec in I. unfold saddr. rewrite E. cbn [map]. split.
  - rewrite (sea_sound S st a k o R E). reflexivity.
  - constructor; [cbn [fst]; lia|constructor].
Qed.
Lemma sload_seen S st a n l : Rel S st -> sload rgs S n a = Some l -> (0 < n)%nat ->
  [ea sect st a] = map adp (saddr S a) /\ Forall (fun ko : nat * Z => 0 < rsize (rg (fst ko))) (saddr S a).
Proof.
  intros R E N. unfold sload in E. destruct (sea S a) as [[k o]|] eqn:A; [|discriminate].
  destruct (in_range _ _ _ _) eqn:I; [|discriminate]. apply (saddr_sound S st a k o _ R A I). lia.
Qed.
Lemma sstore_seen S st a l M : Rel S st -> sstore rgs S l a = Some M -> (0 < length l)%nat ->
  [ea sect st a] = map adp (saddr S a) /\ Forall (fun ko : nat * Z => 0 < rsize (rg (fst ko))) (saddr S a).
Proof.
  intros R E N. unfold sstore in E. destruct (sea S a) as [[k o]|] eqn:A; [|discriminate].
  destruct (in_range _ _ _ _) eqn:I; [|discriminate]. apply (saddr_sound S st a k o _ R A I). lia.
Qed.
Lemma sload64_seen S st a ko g : Rel S st -> sea S a = Some ko -> sload64 rgs S ko = Some g ->
  [ea sect st a] = map adp (saddr S a) /\ Forall (fun ko : nat * Z => 0 < rsize (rg (fst ko))) (saddr S a).
Proof.
  intros R A E. destruct ko as [k o]. cbn [sload64] in E. destruct (in_range rgs k o 8) eqn:I; [|discriminate].
  apply (saddr_sound S st a k o _ R A I). lia.
Qed.
Lemma sstore64_seen S st a ko g M : Rel S st -> sea S a = Some ko -> sstore64 rgs S ko g = Some M ->
  [ea sect st a] = map adp (saddr S a) /\ Forall (fun ko : nat * Z => 0 < rsize (rg (fst ko))) (saddr S a).
Proof.
  intros R A E. destruct ko as [k o]. cbn [sstore64] in E. destruct (in_range rgs k o 8) eqn:I; [|discriminate].
  apply (saddr_sound S st a k o _ R A I). lia.
Qed.
Lemma spush_seen S st g S' : Rel S st -> spush rgs g S = Some S' ->
  [w64 (getr st rsp - 8)] = map adp (stop_of S (-8)) /\ Forall (fun ko : nat * Z => 0 < rsize (rg (fst ko))) (stop_of S (-8)).
Proof.
  intros R E. unfold spush, stop_of in *. pose proof (getg_rel S st rsp R) as P.
  destruct (getg S rsp) as [w|k o|c]; try discriminate. cbn [grel] in P. cbn [sstore64] in E.
  destruct (in_range rgs k (o - 8) 8) eqn:I; [|discriminate]. apply in_range_spec in I. split.
  - cbn [map adp fst snd]. rewrite P. f_equal. exact (ad_add k o (-8)).
  - constructor; [cbn [fst]; lia|constructor].
Qed.
Lemma spop_seen S st x : Rel S st -> spop rgs S = Some x ->
  [getr st rsp] = map adp (stop_of S 0) /\ Forall (fun ko : nat * Z => 0 < rsize (rg (fst ko))) (stop_of S 0).
Proof.
  intros R E. unfold spop, stop_of in *. pose proof (getg_rel S st rsp R) as P.
  destruct (getg S rsp) as [w|k o|c]; try discriminate. cbn [grel] in P. cbn [sload64] in E.
  destruct (in_range rgs k o 8) eqn:I; [|discriminate]. apply in_range_spec in I. split.
  - cbn [map adp fst snd]. rewrite P, Z.add_0_r. reflexivity.
  - constructor; [cbn [fst]; lia|constructor].
Qed.
Lemma dwords_pos k : (0 < dwords k)%nat.
Proof. destruct k; cbn; lia. Qed.
Lemma sexec_seen i S S' st : sexec rgs (mk_labels code 0) i S = Some S' -> instr_ok i = true -> Rel S st ->
  accessed sect st i = map adp (saccessed S i) /\ Forall (fun ko : nat * Z => 0 < rsize (rg (fst ko))) (saccessed S i).
Proof.
  intros E OK R. destruct i; cbn [sexec instr_ok accessed saccessed] in *; try (split; [reflexivity|constructor]).
  - (* IAlu32 *) destruct s as [r|a]; [split; [reflexivity|constructor]|]. cbn [sread32] in E.
    destruct (sload rgs S 1 a) as [l|] eqn:L; [|discriminate]. exact (sload_seen S st a 1 l R L ltac:(lia)).
  - (* IStore32 *) destruct (sstore rgs S _ a) as [M|] eqn:Y; [|discriminate]. apply (sstore_seen S st a _ M R Y). cbn. lia.
  - (* IPush *) destruct (spush rgs (getg S r) S) as [S1|] eqn:Y; [|discriminate]. exact (spush_seen S st _ S1 R Y).
  - (* IPop *) destruct (spop rgs S) as [x|] eqn:Y; [|discriminate]. exact (spop_seen S st x R Y).
  - (* ILoad64 *) destruct (sea S a) as [ko|] eqn:A; [|discriminate]. destruct (sload64 rgs S ko) as [g|] eqn:Y; [|discriminate].
    exact (sload64_seen S st a ko g R A Y).
  - (* IStore64 *) destruct (sea S a) as [ko|] eqn:A; [|discriminate]. destruct (sstore64 rgs S ko _) as [M|] eqn:Y; [|discriminate].
    exact (sstore64_seen S st a ko _ M R A Y).
  - (* IAnd64 *) destruct (sea S a) as [ko|] eqn:A; [|discriminate]. destruct (sload64 rgs S ko) as [g|] eqn:Y; [|discriminate].
    exact (sload64_seen S st a ko g R A Y).
  - (* IV *) destruct s2 as [v|a]; [split; [reflexivity|constructor]|]. cbn [sreadv] in E.
    destruct k; [| |destruct (salign_ok rgs SSE S a); [|discriminate]];
      (match type of E with context [sload rgs S ?n a] => destruct (sload rgs S n a) as [l|] eqn:L; [|discriminate] end);
      exact (sload_seen S st a _ l R L (dwords_pos _)).
  - (* IVLoad *) destruct (aligned && _); [discriminate|]. destruct (sload rgs S (dwords k) a) as [l|] eqn:L; [|discriminate].
    exact (sload_seen S st a _ l R L (dwords_pos _)).
  - (* IVStore *) destruct (aligned && _); [discriminate|]. destruct (sstore rgs S _ a) as [M|] eqn:Y; [|discriminate].
    apply (sstore_seen S st a _ M R Y). rewrite firstn_length, (proj1 (getx_rel S st s R OK)). destruct k; cbn; lia.
  - (* IVInsert128 *) destruct (sload rgs S 4 a) as [l|] eqn:L; [|discriminate]. exact (sload_seen S st a 4 l R L ltac:(lia)).
  - (* ICall *) destruct (spc S) as [w|k o|p]; try discriminate. destruct (_ && _) in E; [|discriminate].
    destruct (spush rgs (SC (p + 1)) S) as [S1|] eqn:Y; [|discriminate]. exact (spush_seen S st _ S1 R Y).
  - (* IRet *) destruct (spop rgs S) as [x|] eqn:Y; [|discriminate]. exact (spop_seen S st x R Y).
Qed.
Lemma sstep_seen S S' st : sstep rgs (mk_labels code 0) prog S = Some S' -> Rel S st ->
  leaked sect code st = seen (sobserved prog S) /\ in_regions (sobserved prog S).
Proof.
  unfold sstep, sobserved, in_regions. destruct (sfetch _ (spc S)) as [i|] eqn:F; [|discriminate]. intros E R.
  destruct (spc S) as [w|k o|p] eqn:P; try discriminate. apply sfetch_sound in F as [F IN].
  pose proof (R_pc _ _ R) as PC. rewrite P in PC. cbn [pcrel] in PC.
  destruct (sexec_seen i S S' st E (code_ok p i F) R) as [A B]. unfold leaked, seen. rewrite PC, F. cbn [fst snd].
  rewrite A. split; [reflexivity|exact B].
Qed.
Lemma srun_sound stop : forall fuel S l S',
  srun rgs (mk_labels code 0) prog fuel stop S = Some (l, S') ->
  ext (stbl S) (stbl S') /\ (exists cs, sconds S' = cs ++ sconds S) /\
  (Sat env (stbl S') -> Forall cond_ok (sconds S') -> forall st, Rel S st ->
   exists st', walk1 (length l) st = Some st' /\ Rel S' st' /\
     map (leaked sect code) (states RD WR sect code (length l) st) = map seen l /\ Forall in_regions l).
Proof.
  induction fuel as [|fuel IH]; intros S l S' E; [discriminate|]. cbn [srun] in E.
  destruct (sstep _ _ _ S) as [S1|] eqn:E1; [|discriminate]. pose proof E1 as E0. apply sstep_sound in E1 as (X1 & [c1 C1] & H1).
  destruct (stopped stop S1).
  - apply some_inj, pair_equal_spec in E as [<- <-]. split; [exact X1|]. split; [exists c1; exact C1|].
    intros SA CO st R. destruct (H1 SA CO st R) as (st' & A & B). exists st'. split; [exact A|]. split; [exact B|].
    destruct (sstep_seen S S1 st E0 R) as [Q1 Q2]. cbn [length states map]. rewrite Q1.
    split; [|constructor; [exact Q2|constructor]]. f_equal. destruct (step _ _ _ _ _); reflexivity.
  - destruct (srun _ _ _ fuel stop S1) as [[l1 S2]|] eqn:E2; [|discriminate]. apply some_inj, pair_equal_spec in E as [<- <-].
    apply IH in E2 as (X2 & [c2 C2] & H2). split; [eapply ext_trans; eassumption|].
    split; [exists (c2 ++ c1); rewrite C2, C1, app_assoc; reflexivity|].
    intros SA CO st R. destruct (H1 (Sat_ext _ _ _ X2 SA)) with (st := st) as (st1 & A1 & B1); [|exact R|].
    + rewrite C2 in CO. apply Forall_app in CO. exact (proj2 CO).
    + destruct (H2 SA CO st1 B1) as (st' & A2 & B2 & T & I). exists st'. cbn [length].
      destruct (sstep_seen S S1 st E0 R) as [Q1 Q2].
      change (Datatypes.S (length l1)) with (1 + length l1)%nat. rewrite walk_app, A1.
      split; [exact A2|]. split; [exact B2|]. split; [|constructor; assumption].
      cbn [Nat.add states map]. rewrite Q1. f_equal. cbn [walk] in A1. destruct (_ && _) in A1; [|discriminate].
      destruct (step RD WR sect code st) as [s|]; [|discriminate]. cbn [obind] in A1. apply some_inj in A1. subst s. exact T.
Qed.
End Sim.
