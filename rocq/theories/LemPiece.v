(** Fragments of a routine during a call: from the symbolic fragments of FragAsm.v to
    memory and registers. *)
From Coq Require Import ZArith String List Bool Lia ZifyBool ZifyNat.
From Verif Require Import Base SpecSha ModelX86 SpecTime ModelAsm ModelImage LemBase SymWord LemSymWord SymX86 LemSymVec LemSymX86 SymFrag LemSymFrag LemX86 SpecAsm LemDigest FragAsm.
Import ListNotations.
Open Scope list_scope.
Open Scope Z_scope.
Ltac Zify.zify_post_hook ::= Z.div_mod_to_equations.

Lemma FOP_nth {A} (R : A -> A -> Prop) l : ForallOrdPairs R l ->
  forall i j x y, (i < j)%nat -> nth_error l i = Some x -> nth_error l j = Some y -> R x y.
Proof.
  induction 1 as [|a l F O IH]; intros i j x y L X Y; [destruct i; discriminate|].
  destruct j as [|j]; [lia|]. cbn [nth_error] in Y. destruct i as [|i]; cbn [nth_error] in X.
  - injection X as <-. rewrite Forall_forall in F. apply F. exact (nth_error_In _ _ Y).
  - apply (IH i j); auto. lia.
Qed.

(** ** Values that do not depend on the atoms *)
Definition plain (g : sgpr) : bool := match g with SW SX => true | SW _ => false | _ => true end.
Definition exact (g : sgpr) : bool := match g with SW _ => false | SC c => (0 <=? c) && (c <? 18446744073709551616) | _ => true end.
Definition wplain (w : sword) : bool :=
  match w with SX => true | SLin c [] => (0 <=? c) && (c <? 4294967296) | _ => false end.
Lemma plain_grel bv env env' g v : plain g = true -> grel bv env g v -> grel bv env' g v.
Proof. destruct g as [[]|k o|c]; cbn [plain grel]; auto; discriminate. Qed.
Lemma wplain_wrel env env' w v : wplain w = true -> wrel env w v -> wrel env' w v.
Proof. destruct w as [|c [|]|]; cbn [wplain wrel lsum]; auto; discriminate. Qed.
Lemma exact_grel bv env g v v' : exact g = true -> grel bv env g v -> grel bv env g v' -> v = v'.
Proof. destruct g as [w|k o|c]; cbn [exact grel]; [discriminate| |]; intros _ H H'; [congruence|]. destruct H, H'. congruence. Qed.
Lemma exact_u64 bv env g v : exact g = true -> grel bv env g v -> 0 <= v < 2 ^ 64.
Proof. destruct g as [w|k o|c]; cbn [exact grel]; [discriminate| |]; intros E H; [subst; apply w64_range|]. destruct H. congruence. Qed.

(** ** Points *)
Definition holds (bv : nat -> Z) (p : point) (st : state) : Prop :=
  pcrel bv (p_pc p) (pc st) /\
  (forall env, Forall2 (grel bv env) (p_gpr p) (gpr st)) /\
  (forall env, Forall2 (vrel env 8) (p_vec p) (ymm st)) /\
  Forall (fun x : Z * sgpr => forall env, grel bv env (snd x) (le_val (bytes_at (mem st) (bv 7%nat + fst x) 8))) (p_saved p).
Definition saved_ok (stack : region) (l : list (Z * sgpr)) : bool :=
  forallb (fun x : Z * sgpr => (0 <=? fst x) && (fst x mod 4 =? 0) && (fst x + 8 <=? rsize stack) && exact (snd x)) l.
Definition point_ok (stack : region) (p : point) : bool :=
  forallb plain (p_gpr p) && Nat.eqb (length (p_xmm8 p)) 8 && forallb wplain (p_xmm8 p) && saved_ok stack (p_saved p).
Definition is_const (g : sgpr) : bool := match g with SC _ => true | _ => false end.
Definition piece_ok (q : piece) : bool :=
  is_const (p_pc (q_from q)) && point_ok (q_stack q) (q_from q) && point_ok (q_stack q) (q_to q).

(** ** Cells *)
Section Cells.
Variable bv : nat -> Z.
Lemma word_cells_ok rgs env m k : forall ws vs i,
  Forall2 (wrel env) ws vs -> mws bv m k (offp i) (length vs) = vs -> offp i + 4 * zlen vs <= rsize (rg rgs k) ->
  Forall (cell_ok bv rgs env m) (word_cells k i ws).
Proof.
  induction ws as [|w ws IH]; intros vs i F E L; inversion F as [|? v ? vs' R F']; subst; cbn [word_cells]; constructor.
  - cbn [length mws] in E. injection E as E _. unfold zlen in L. cbn [length] in L. split; [lia|]. cbn [crel]. rewrite E. exact R.
  - cbn [length mws] in E. injection E as _ E. unfold zlen in L. cbn [length] in L.
    apply (IH vs'); auto; unfold zlen; [|unfold offp in *; lia].
    replace (offp (Pos.succ i)) with (offp i + 4) by (unfold offp; lia). exact E.
Qed.
Lemma key_spec o : 0 <= o -> o mod 4 = 0 -> offp (key o) = o.
Proof. intros A B. apply (key_off (fun x => x)); assumption. Qed.
Lemma mw_bytes m k o : 0 <= bv k + o -> bv k + o + 4 <= 2 ^ 64 -> mw bv m k o = le_val (bytes_at m (bv k + o) 4).
Proof.
  intros A B. pose proof (mws_bytes bv m k o 1 ltac:(lia) ltac:(lia)) as E. cbn [mws of_bytes Nat.mul Nat.add] in E.
  injection E as E. exact E.
Qed.
Lemma le_val8 m a : le_val (bytes_at m a 8) = le_val (bytes_at m a 4) + 2 ^ 32 * le_val (bytes_at m (a + 4) 4).
Proof. change 8%nat with (4 + 4)%nat. rewrite bytes_at_app, (le_val_app (fun x => x)). reflexivity. Qed.
Lemma bytes4_range m a : (forall x, 0 <= m x < 256) -> 0 <= le_val (bytes_at m a 4) < 2 ^ 32.
Proof. intros M. pose proof (le_val_bound _ (bytes_at_ok m a 4 M)) as B. unfold zlen in B. rewrite bytes_at_length in B. exact B. Qed.
Lemma gpr_cells_ok rgs env m k o g : (forall x, 0 <= m x < 256) ->
  0 <= o -> o mod 4 = 0 -> o + 8 <= rsize (rg rgs k) -> 0 <= bv k -> bv k + rsize (rg rgs k) <= 2 ^ 64 ->
  grel bv env g (le_val (bytes_at m (bv k + o) 8)) -> Forall (cell_ok bv rgs env m) (gpr_cells k o g).
Proof.
  intros M A B C D E G. unfold gpr_cells.
  pose proof (bytes4_range m (bv k + o) M) as R1. pose proof (bytes4_range m (bv k + o + 4) M) as R2.
  pose proof (le_val8 m (bv k + o)) as V.
  assert (K2 : offp (Pos.succ (key o)) = o + 4) by (rewrite <- (key_spec o A B) at 2; unfold offp; lia).
  constructor; [|constructor; [|constructor]]; unfold cell_ok; rewrite ?K2, ?key_spec by assumption; split; try lia;
    cbn [crel]; eexists; (split; [exact G|]); rewrite mw_bytes by lia; rewrite V.
  - lia.
  - rewrite Z.add_assoc. set (x := le_val (bytes_at m (bv k + o) 4)) in *. set (y := le_val (bytes_at m (bv k + o + 4) 4)) in *.
    clearbody x y. clear V G M. lia.
Qed.
Lemma gpr_cells_get rgs env m k o g : (forall x, 0 <= m x < 256) ->
  0 <= o -> o mod 4 = 0 -> o + 8 <= rsize (rg rgs k) -> 0 <= bv k -> bv k + rsize (rg rgs k) <= 2 ^ 64 -> exact g = true ->
  Forall (cell_ok bv rgs env m) (gpr_cells k o g) -> grel bv env g (le_val (bytes_at m (bv k + o) 8)).
Proof.
  intros M A B C D E X F. unfold gpr_cells in F.
  assert (K2 : offp (Pos.succ (key o)) = o + 4) by (rewrite <- (key_spec o A B) at 2; unfold offp; lia).
  inversion F as [|c l F1 F2]; subst. inversion F2 as [|c' l' F3 _]; subst. unfold cell_ok in F1, F3.
  rewrite K2 in F3. rewrite key_spec in F1 by assumption. destruct F1 as [_ (v & G & E1)]. destruct F3 as [_ (v' & G' & E2)].
  pose proof (exact_grel _ _ _ _ _ X G G') as <-. pose proof (exact_u64 _ _ _ _ X G) as U.
  rewrite mw_bytes in E1, E2 by lia. rewrite le_val8. rewrite Z.add_assoc in E2. rewrite E1, E2.
  replace (v mod 2 ^ 32 + 2 ^ 32 * ((v / 2 ^ 32) mod 2 ^ 32)) with v by lia. exact G.
Qed.
End Cells.

(** ** A call in progress *)
(** ** What can be seen of a piece: it depends on the places of the data sections, the
    input, the output and the stack only. *)
Definition near (sect : nat -> Z) (si di base d : Z) (k : nat) : Z :=
  nth k (map sect (seq 0 5) ++ [si + 64 * d; di + 32 * d; base]) 0.
Definition view (sect : nat -> Z) (si di base d : Z) (q : piece) : list (Z * list Z) :=
  map (seen (near sect si di base d)) (f_seen (piece_frag q)).

Section Progress.
Variables RD WR : Z -> bool.
Variable sect : nat -> Z.
Variables consts scratch : list nat.
Variable depth n : Z.
Variable st0 : state.
Hypothesis HC : call RD WR sect consts scratch depth n st0.
Hypothesis Hone : forall s s', In s scratch -> In s' scratch -> s = s'.
Notation sp := (getr st0 rsp).
Notation inp := (getr st0 rsi).
Notation out := (getr st0 rdi).
Notation RO := (read_only sect consts n st0).
Notation OW := (owned sect scratch depth n st0).

Definition unchanged (st : state) : Prop := forall x, Forall (fun a => ~ inside x a) OW -> mem st x = mem st0 x.
Definition sofar (d : Z) (st : state) : Prop := forall i, 0 <= i < d ->
  bytes_at (mem st) (out + 32 * i) 32 = sha256 (bytes_at (mem st0) (inp + 64 * i) 64).
Definition inv (d : Z) (st : state) : Prop := valid st /\ unchanged st /\ sofar d st.

Lemma valid_sane st : valid st -> sane st.
Proof. intros V. split; [exact (V_gpr _ V)|]. split; [exact (V_u64 _ V)|exact (V_mem _ V)]. Qed.
Lemma sp_range : 0 <= sp < 2 ^ 64.
Proof. apply getr_u64, valid_sane, (C_valid _ _ _ _ _ _ _ _ HC). Qed.
Lemma space a : In a (RO ++ OW) -> 0 <= fst a /\ fst a + snd a <= 2 ^ 64.
Proof. pose proof (C_space _ _ _ _ _ _ _ _ HC) as F. rewrite Forall_forall in F. apply F. Qed.
Lemma in_sp : In (sp, 8) (RO ++ OW).
Proof. left. reflexivity. Qed.
Lemma in_inp : In (inp, 64 * n) (RO ++ OW).
Proof. right. left. reflexivity. Qed.
Lemma in_const s : In s consts -> In (section_area sect s) (RO ++ OW).
Proof. intros I. apply in_or_app. left. right. right. apply in_map. exact I. Qed.
Lemma in_stack : In (sp - depth, depth) (RO ++ OW).
Proof. apply in_or_app. right. left. reflexivity. Qed.
Lemma in_out : In (out, 32 * n) (RO ++ OW).
Proof. apply in_or_app. right. right. left. reflexivity. Qed.
Lemma in_scratch s : In s scratch -> In (section_area sect s) (RO ++ OW).
Proof. intros I. apply in_or_app. right. right. right. apply in_map. exact I. Qed.
Lemma ro_ow a b x : In a OW -> In b RO -> inside x a -> inside x b -> False.
Proof.
  intros A B. pose proof (C_apart _ _ _ _ _ _ _ _ HC) as F. rewrite Forall_forall in F. specialize (F a A).
  rewrite Forall_forall in F. apply (F b B).
Qed.
Lemma kept st b x : unchanged st -> In b RO -> inside x b -> mem st x = mem st0 x.
Proof.
  intros U B I. apply U. apply Forall_forall. intros a A J. exact (ro_ow a b x A B J I).
Qed.
Lemma kept_bytes st b a k : unchanged st -> In b RO -> fst b <= a -> a + Z.of_nat k <= fst b + snd b ->
  bytes_at (mem st) a k = bytes_at (mem st0) a k.
Proof.
  intros U B L R. apply bytes_at_ext. intros x X. apply (kept st b); auto. unfold inside. lia.
Qed.

(** *** Layout *)
Variable d : Z.
Variable base : Z.
Variable rest : list Z.
Definition bases : list Z := map sect (seq 0 5) ++ [inp + 64 * d; out + 32 * d; base] ++ rest.
Definition bv (k : nat) : Z := nth k bases 0.
Lemma bv_sect s : (s < 5)%nat -> bv s = sect s.
Proof. intros L. do 5 (destruct s as [|s]; [reflexivity|]). lia. Qed.
Lemma bv_in : bv 5 = inp + 64 * d.
Proof. reflexivity. Qed.
Lemma bv_out : bv 6 = out + 32 * d.
Proof. reflexivity. Qed.
Lemma bv_stack : bv 7 = base.
Proof. reflexivity. Qed.

Variable b : nat.
Variable stack : region.
Hypothesis Hd : 0 <= d.
Hypothesis Hb : d + Z.of_nat b <= n.
Hypothesis Hst : sp - depth <= base /\ base + rwr stack <= sp /\ base + rsize stack <= sp + 8 /\ 0 <= rwr stack <= rsize stack.
Hypothesis Hal : (ralign stack | base).
Hypothesis Hsz : rsize stack < 2 ^ 64.
Hypothesis Hcs : Forall (fun s => (s < 5)%nat) (consts ++ scratch).
Notation rgs := (std_rgs consts scratch (Z.of_nat b) stack).

Lemma rg_sect s : (s < 5)%nat -> rg rgs s = section_rg consts scratch s.
Proof. intros L. do 5 (destruct s as [|s]; [reflexivity|]). lia. Qed.
Lemma rg_in : rg rgs 5 = {| rsize := 64 * Z.of_nat b; rwr := 0; ralign := 1 |}.
Proof. reflexivity. Qed.
Lemma rg_out : rg rgs 6 = {| rsize := 32 * Z.of_nat b; rwr := 32 * Z.of_nat b; ralign := 1 |}.
Proof. reflexivity. Qed.
Lemma rg_stack : rg rgs 7 = stack.
Proof. reflexivity. Qed.
Lemma rg_none k : (8 <= k)%nat -> rg rgs k = no_region.
Proof. intros L. do 8 (destruct k as [|k]; [lia|]). destruct k; reflexivity. Qed.
Lemma section_len s : zlen (section_bytes s) = 4 * zlen (words_of (nth s sections [])).
Proof. unfold section_bytes, zlen. rewrite (to_bytes_length (fun x => x)). lia. Qed.
Lemma existsb_In s l : existsb (Nat.eqb s) l = true -> In s l.
Proof. intros H. apply existsb_exists in H as (x & I & E). apply Nat.eqb_eq in E. subst. exact I. Qed.
Lemma In_existsb s l : In s l -> existsb (Nat.eqb s) l = true.
Proof. intros I. apply existsb_exists. exists s. split; [exact I|apply Nat.eqb_refl]. Qed.

Definition slot (k : nat) : nat := match k with 7 => 0 | 6 => 1 | _ => 2 end%nat.
(** the area of an address of a region *)
Lemma wr_area k o : 0 <= o < rwr (rg rgs k) ->
  exists a j, nth_error OW j = Some a /\ inside (bv k + o) a /\
    ((k = 7 /\ j = 0) \/ (k = 6 /\ j = 1) \/ ((k < 5) /\ In k scratch /\ nth_error OW j = Some (section_area sect k) /\ 2 <= j))%nat.
Proof.
  intros O. destruct (Nat.lt_ge_cases k 5) as [L|L].
  - rewrite rg_sect in O by exact L. unfold section_rg in O. cbv zeta in O.
    destruct (existsb (Nat.eqb k) consts); [cbn [rwr] in O; lia|].
    destruct (existsb (Nat.eqb k) scratch) eqn:E; [|cbn [rwr no_region] in O; lia]. cbn [rwr] in O.
    apply existsb_In in E. pose proof E as E'. apply (in_map (section_area sect)) in E. apply In_nth_error in E as (j & E).
    exists (section_area sect k), (S (S j)). split; [exact E|]. split.
    + unfold inside, section_area. cbn [fst snd]. rewrite bv_sect, section_len by exact L. lia.
    + right. right. split; [exact L|]. split; [exact E'|]. split; [exact E|lia].
  - destruct (Nat.eq_dec k 5) as [->|N5]; [rewrite rg_in in O; cbn [rwr] in O; lia|].
    destruct (Nat.eq_dec k 6) as [->|N6].
    + rewrite rg_out in O. cbn [rwr] in O. exists (out, 32 * n), 1%nat. split; [reflexivity|]. split; [|auto].
      unfold inside. cbn [fst snd]. rewrite bv_out. lia.
    + destruct (Nat.eq_dec k 7) as [->|N7].
      * rewrite rg_stack in O. exists (sp - depth, depth), 0%nat. split; [reflexivity|]. split; [|auto].
        unfold inside. cbn [fst snd]. rewrite bv_stack. lia.
      * rewrite rg_none in O by lia. cbn [rwr no_region] in O. lia.
Qed.
Lemma rd_area k o : 0 <= o < rsize (rg rgs k) ->
  (exists a, In a RO /\ inside (bv k + o) a) \/
  (exists a j, nth_error OW j = Some a /\ inside (bv k + o) a /\
    ((k = 7 /\ j = 0) \/ (k = 6 /\ j = 1) \/ ((k < 5) /\ In k scratch /\ nth_error OW j = Some (section_area sect k) /\ 2 <= j)))%nat.
Proof.
  intros O. destruct (Z_lt_ge_dec o (rwr (rg rgs k))) as [W|W]; [right; apply wr_area; lia|].
  destruct (Nat.lt_ge_cases k 5) as [L|L].
  - rewrite rg_sect in O, W by exact L. unfold section_rg in O, W. cbv zeta in O, W.
    destruct (existsb (Nat.eqb k) consts) eqn:E.
    + left. apply existsb_In in E. exists (section_area sect k). split; [right; right; apply in_map; exact E|].
      unfold inside, section_area. cbn [fst snd rsize] in *. rewrite bv_sect, section_len by exact L. lia.
    + destruct (existsb (Nat.eqb k) scratch); cbn [rsize rwr no_region] in O, W; lia.
  - destruct (Nat.eq_dec k 5) as [->|N5].
    + rewrite rg_in in O. cbn [rsize] in O. left. exists (inp, 64 * n). split; [right; left; reflexivity|].
      unfold inside. cbn [fst snd]. rewrite bv_in. lia.
    + destruct (Nat.eq_dec k 6) as [->|N6]; [rewrite rg_out in O, W; cbn [rsize rwr] in O, W; lia|].
      destruct (Nat.eq_dec k 7) as [->|N7].
      * rewrite rg_stack in O, W. rewrite bv_stack.
        destruct (Z_lt_ge_dec (base + o) sp) as [B|B].
        -- right. exists (sp - depth, depth), 0%nat. split; [reflexivity|]. split; [|auto]. unfold inside. cbn [fst snd]. lia.
        -- left. exists (sp, 8). split; [left; reflexivity|]. unfold inside. cbn [fst snd]. lia.
      * rewrite rg_none in O by lia. cbn [rsize no_region] in O. lia.
Qed.
Lemma ad_plain k o : 0 <= o < rsize (rg rgs k) -> ad bv k o = bv k + o.
Proof.
  intros O. unfold ad. apply w64_small.
  assert (X : exists a, In a (RO ++ OW) /\ inside (bv k + o) a).
  { destruct (rd_area k o O) as [(a & A & I)|(a & j & A & I & _)]; exists a; split; auto; apply in_or_app; auto.
    right. exact (nth_error_In _ _ A). }
  destruct X as (a & A & I). apply space in A. unfold inside in I. lia.
Qed.
Lemma rwr_le k : rwr (rg rgs k) <= rsize (rg rgs k).
Proof.
  destruct (Nat.lt_ge_cases k 5) as [L|L].
  - rewrite rg_sect by exact L. unfold section_rg. cbv zeta. unfold zlen.
    destruct (existsb _ consts); [cbn [rwr rsize]; lia|]. destruct (existsb _ scratch); cbn [rwr rsize no_region]; lia.
  - destruct (Nat.eq_dec k 5) as [->|N5]; [rewrite rg_in; cbn [rwr rsize]; lia|].
    destruct (Nat.eq_dec k 6) as [->|N6]; [rewrite rg_out; cbn [rwr rsize]; lia|].
    destruct (Nat.eq_dec k 7) as [->|N7]; [rewrite rg_stack; lia|]. rewrite rg_none by lia. cbn. lia.
Qed.
Lemma section_sizes : forallb (fun s => zlen (words_of s) <? 2 ^ 20) sections = true.
Proof. vm_compute. reflexivity. Qed.
Lemma section_size s : (s < 5)%nat -> 4 * zlen (words_of (nth s sections [])) < 2 ^ 22.
Proof.
  intros L. pose proof section_sizes as F. rewrite forallb_forall in F. specialize (F (nth s sections [])).
  assert (I : In (nth s sections []) sections) by (apply nth_In; exact L). apply F in I. lia.
Qed.
Theorem std_layout : Layout RD WR sect image rgs bv.
Proof.
  constructor.
  - intros s L. symmetry. apply bv_sect. exact L.
  - intros k o O. rewrite ad_plain by exact O.
    pose proof (C_read _ _ _ _ _ _ _ _ HC) as F. rewrite Forall_forall in F.
    destruct (rd_area k o O) as [(a & A & I)|(a & j & A & I & _)]; apply (F a); auto; apply in_or_app; auto.
    right. exact (nth_error_In _ _ A).
  - intros k o O. pose proof (rwr_le k). rewrite ad_plain by lia.
    pose proof (C_write _ _ _ _ _ _ _ _ HC) as F. rewrite Forall_forall in F.
    destruct (wr_area k o O) as (a & j & A & I & _). apply (F a); auto. exact (nth_error_In _ _ A).
  - intros k o k' o' O O' E. pose proof (rwr_le k). rewrite !ad_plain in E by lia.
    assert (k = k'); [|split; [assumption|]; subst; lia].
    destruct (wr_area k o O) as (a & j & A & I & C).
    destruct (rd_area k' o' O') as [(a' & A' & I')|(a' & j' & A' & I' & C')].
    + exfalso. rewrite E in I. exact (ro_ow a a' _ (nth_error_In _ _ A) A' I I').
    + pose proof (C_owned _ _ _ _ _ _ _ _ HC) as F. rewrite E in I.
      destruct (Nat.lt_trichotomy j j') as [J|[J|J]].
      * exfalso. exact (FOP_nth _ _ F _ _ _ _ J A A' _ I I').
      * subst j'. destruct C as [[-> ->]|[[-> ->]|(C1 & C2 & C3 & C4)]];
          destruct C' as [[-> D2]|[[-> D2]|(D1 & D2 & D3 & D4)]]; try reflexivity; try lia.
        exact (Hone _ _ C2 D2).
      * exfalso. exact (FOP_nth _ _ F _ _ _ _ J A' A _ I' I).
  - intros k. destruct (Nat.lt_ge_cases k 5) as [L|L].
    + rewrite rg_sect by exact L. unfold section_rg. cbv zeta. pose proof (section_size k L).
      destruct (existsb _ consts); [cbn [rsize]; lia|]. destruct (existsb _ scratch); cbn [rsize no_region]; lia.
    + destruct (Nat.eq_dec k 5) as [->|N5].
      { rewrite rg_in. cbn [rsize]. destruct (space _ in_inp) as [S1 S2]. destruct (space _ in_out) as [S3 S4]. cbn [fst snd] in *.
        pose proof (getr_u64 st0 rsi (valid_sane _ (C_valid _ _ _ _ _ _ _ _ HC))) as U. unfold u64 in U.
        destruct (Z.eq_dec inp 0) as [Z0|NZ]; [|lia]. destruct (Z_lt_ge_dec (64 * Z.of_nat b) (2 ^ 64)) as [|G]; [assumption|].
        exfalso. apply (ro_ow (out, 32 * n) (inp, 64 * n) out); [right; left; reflexivity|right; left; reflexivity| |];
          unfold inside; cbn [fst snd]; lia. }
      destruct (Nat.eq_dec k 6) as [->|N6].
      { rewrite rg_out. cbn [rsize]. destruct (space _ in_inp) as [S1 S2]. cbn [fst snd] in *. lia. }
      destruct (Nat.eq_dec k 7) as [->|N7]; [rewrite rg_stack; exact Hsz|]. rewrite rg_none by lia. cbn. lia.
  - intros k. pose proof (C_align _ _ _ _ _ _ _ _ HC) as F. rewrite Forall_forall in F.
    destruct (Nat.lt_ge_cases k 5) as [L|L].
    + rewrite rg_sect, bv_sect by exact L. unfold section_rg. cbv zeta.
      destruct (existsb (Nat.eqb k) consts) eqn:E.
      { cbn [ralign]. apply existsb_In in E. apply Z.mod_divide; [lia|]. apply F, in_or_app. auto. }
      destruct (existsb (Nat.eqb k) scratch) eqn:E2; [|cbn; apply Z.divide_1_l].
      cbn [ralign]. apply existsb_In in E2. apply Z.mod_divide; [lia|]. apply F, in_or_app. auto.
    + destruct (Nat.eq_dec k 5) as [->|N5]; [rewrite rg_in; apply Z.divide_1_l|].
      destruct (Nat.eq_dec k 6) as [->|N6]; [rewrite rg_out; apply Z.divide_1_l|].
      destruct (Nat.eq_dec k 7) as [->|N7]; [rewrite rg_stack, bv_stack; exact Hal|]. rewrite rg_none by lia. apply Z.divide_1_l.
  - vm_compute. reflexivity.
Qed.

(** *** Running a piece *)
Variable q : piece.
Hypothesis Qc : q_consts q = consts.
Hypothesis Qs : q_scratch q = scratch.
Hypothesis Qb : q_blocks q = b.
Hypothesis Qk : q_stack q = stack.
Hypothesis Qok : piece_ok q = true.
Hypothesis Qfrag : frag_ok (piece_frag q) = true.

Lemma section_ranges : forallb (fun s => forallb (fun x => (0 <=? x) && (x <? 4294967296)) (words_of s)) sections = true.
Proof. vm_compute. reflexivity. Qed.
Lemma section_range s : (s < 5)%nat -> Forall (fun x => 0 <= x < 2 ^ 32) (words_of (nth s sections [])).
Proof.
  intros L. pose proof section_ranges as F. rewrite forallb_forall in F. apply forallb_range, F, nth_In. exact L.
Qed.
Lemma section_cells_ok st env s : unchanged st -> In s consts -> Forall (cell_ok bv rgs env (mem st)) (section_cells s).
Proof.
  intros U I. assert (L : (s < 5)%nat).
  { rewrite Forall_forall in Hcs. apply Hcs, in_or_app. auto. }
  unfold section_cells. set (ws := words_of (nth s sections [])).
  pose proof (section_range s L) as R. fold ws in R.
  destruct (space _ (in_const s I)) as [S1 S2]. unfold section_area in S1, S2. cbn [fst snd] in S1, S2. rewrite section_len in S2. fold ws in S2.
  apply (word_cells_ok bv rgs env (mem st) s (map sconst ws) ws 1).
  - apply const_F2. exact R.
  - change (offp 1) with 0. rewrite mws_bytes; rewrite bv_sect by exact L; [|lia|unfold zlen in S2; lia].
    rewrite Z.add_0_r. rewrite (kept_bytes st (section_area sect s)).
    + pose proof (C_consts _ _ _ _ _ _ _ _ HC) as F. rewrite Forall_forall in F. specialize (F s I).
      unfold section_bytes in F. fold ws in F. rewrite (to_bytes_length (fun x => x)) in F. rewrite F. apply of_to_bytes. exact R.
    + exact U.
    + right. right. apply in_map. exact I.
    + cbn. lia.
    + unfold section_area. cbn [fst snd]. rewrite section_len. fold ws. unfold zlen. lia.
  - change (offp 1) with 0. rewrite rg_sect by exact L. unfold section_rg. cbv zeta. rewrite (In_existsb _ _ I). cbn [rsize].
    fold ws. lia.
Qed.
Definition e0 (st : state) (i : positive) : Z := mw bv (mem st) 5 (offp i).
Lemma e0_range st : sane st -> forall i, 0 <= e0 st i < 2 ^ 32.
Proof.
  intros (_ & _ & M) i. unfold e0, mw.
  assert (B : bytes_ok [mem st (ad bv 5 (offp i)); mem st (ad bv 5 (offp i + 1)); mem st (ad bv 5 (offp i + 2)); mem st (ad bv 5 (offp i + 3))])
    by (repeat (apply Forall_cons; [apply M|]); apply Forall_nil).
  apply le_val_bound in B. exact B.
Qed.
Lemma env_words_mws st : forall k i, env_words (e0 st) k i = mws bv (mem st) 5 (offp i) k.
Proof.
  induction k as [|k IH]; intros i; cbn [env_words mws]; [reflexivity|]. rewrite IH.
  replace (offp (Pos.succ i)) with (offp i + 4) by (unfold offp; lia). reflexivity.
Qed.
Lemma atom_cells_ok st env : forall k i, (Pos.to_nat i + k <= 16 * b + 1)%nat ->
  (forall j, 0 <= env j < 2 ^ 32) -> (forall j, (Pos.to_nat j <= 16 * b)%nat -> env j = e0 st j) ->
  Forall (cell_ok bv rgs env (mem st)) (word_cells 5 i (atoms k i)).
Proof.
  induction k as [|k IH]; intros i L R A; cbn [atoms word_cells]; constructor.
  - split; [rewrite rg_in; cbn [rsize]; unfold offp; lia|]. cbn [crel]. fold (e0 st i). rewrite <- A by lia. apply wrel_atom. exact R.
  - apply IH; auto. lia.
Qed.
Lemma saved_cells_ok st env l : sane st -> saved_ok stack l = true ->
  Forall (fun x : Z * sgpr => forall env, grel bv env (snd x) (le_val (bytes_at (mem st) (bv 7%nat + fst x) 8))) l ->
  Forall (cell_ok bv rgs env (mem st)) (saved_cells l).
Proof.
  intros S O F. unfold saved_cells. destruct (space _ in_stack) as [S1 S2]. pose proof (space _ in_sp) as S3. cbn [fst snd] in *.
  induction F as [|x l G F IH]; cbn [flat_map]; [constructor|]. unfold saved_ok in O. cbn [forallb] in O. apply andb_prop in O as [O1 O2].
  apply Forall_app. split; [|apply IH; exact O2].
  apply (gpr_cells_ok bv rgs env (mem st)); rewrite ?rg_stack, ?bv_stack; try lia; [exact (proj2 (proj2 S))|apply G].
Qed.
Lemma saved_cells_get st env l : sane st -> saved_ok stack l = true ->
  Forall (cell_ok bv rgs env (mem st)) (saved_cells l) ->
  Forall (fun x : Z * sgpr => forall env, grel bv env (snd x) (le_val (bytes_at (mem st) (bv 7%nat + fst x) 8))) l.
Proof.
  intros S O. unfold saved_cells. destruct (space _ in_stack) as [S1 S2]. pose proof (space _ in_sp) as S3. cbn [fst snd] in *.
  induction l as [|x l IH]; cbn [flat_map]; intros F; [constructor|]. unfold saved_ok in O. cbn [forallb] in O. apply andb_prop in O as [O1 O2].
  apply Forall_app in F as [F1 F2]. constructor; [|apply IH; assumption].
  intros env'. apply (plain_grel bv env); [apply andb_prop in O1 as [_ O1]; destruct (snd x) as [w| |]; [discriminate O1|reflexivity|reflexivity]|].
  apply (gpr_cells_get bv rgs env (mem st)) in F1; rewrite ?rg_stack, ?bv_stack; try lia; try exact F1; try exact (proj2 (proj2 S)).
  apply andb_prop in O1 as [_ O1]. exact O1.
Qed.
Lemma F2_plain env env' : forall l vs, forallb plain l = true -> Forall2 (grel bv env) l vs -> Forall2 (grel bv env') l vs.
Proof.
  intros l vs P F. induction F as [|g v l vs G F IH]; constructor; cbn [forallb] in P; apply andb_prop in P as [P1 P2]; auto.
  exact (plain_grel bv env env' g v P1 G).
Qed.
Lemma F2_wplain env env' : forall l vs, forallb wplain l = true -> Forall2 (wrel env) l vs -> Forall2 (wrel env') l vs.
Proof.
  intros l vs P F. induction F as [|g v l vs G F IH]; constructor; cbn [forallb] in P; apply andb_prop in P as [P1 P2]; auto.
  exact (wplain_wrel env env' g v P1 G).
Qed.
Lemma vec_plain env env' p : forallb wplain (p_xmm8 p) = true ->
  forall vs, Forall2 (vrel env 8) (p_vec p) vs -> Forall2 (vrel env' 8) (p_vec p) vs.
Proof.
  intros P. assert (A : Forall (fun x => forallb wplain x = true) (p_vec p)).
  { unfold p_vec. apply Forall_upd'; [|exact P]. apply Forall_forall. intros x X. apply repeat_spec in X. subst x. reflexivity. }
  revert A. generalize (p_vec p). intros l A vs F. induction F as [|g v l vs [G1 G2] F IH]; constructor; inversion A; subst; auto.
  split; [exact G1|]. apply (F2_wplain env env'); assumption.
Qed.
Lemma steps_sane k st st' : sane st -> steps RD WR sect image k st = Some st' -> sane st'.
Proof. apply sane_steps. exact image_imm. Qed.
Lemma view_near l : Forall (in_regions rgs) l -> map (seen bv) l = map (seen (near sect inp out base d)) l.
Proof.
  induction 1 as [|[p a] l X F IH]; cbn [map]; [reflexivity|]. f_equal; [|exact IH]. unfold seen. cbn [fst snd]. f_equal.
  clear F IH. unfold in_regions in X. cbn [snd] in X. induction X as [|[k o] a X F IH]; cbn [map]; [reflexivity|]. f_equal; [|exact IH].
  unfold adp, ad. cbn [fst snd] in *. f_equal. f_equal.
  assert (L : (k < 8)%nat). { destruct (Nat.lt_ge_cases k 8); [assumption|]. rewrite rg_none in X by assumption. cbn [rsize no_region] in X. lia. }
  unfold bv, near, bases. rewrite app_assoc. apply app_nth1. cbn [map seq app length]. lia.
Qed.
Theorem run_piece st : inv d st -> holds bv (q_from q) st ->
  (forall env, Forall (cond_ok bv env) (q_conds q)) ->
  exists k st', walk RD WR sect image (Z.of_nat (fst (q_range q))) (Z.of_nat (fst (q_range q)) + Z.of_nat (snd (q_range q))) k st = Some st' /\
    map (leaked sect image) (states RD WR sect image k st) = view sect inp out base d q /\ inv (d + Z.of_nat b) st' /\ holds bv (q_to q) st'.
Proof.
  intros (V & U & SF) (Hpc & Hg & Hv & Hsv) Hco. pose proof (valid_sane _ V) as SN.
  unfold piece_ok in Qok. apply andb_prop in Qok as [Q1 Qt]. apply andb_prop in Q1 as [Qp Qf].
  unfold point_ok in Qf, Qt. apply andb_prop in Qf as [_ Qf4].
  apply andb_prop in Qt as [Qt Qt4]. apply andb_prop in Qt as [Qt Qt3]. apply andb_prop in Qt as [Qt1 Qt2].
  rewrite Qk in Qf4, Qt4.
  assert (RG : f_rgs (piece_frag q) = rgs) by (cbn [piece_frag f_rgs]; rewrite Qc, Qs, Qb, Qk; reflexivity).
  assert (NA : f_natoms (piece_frag q) = Pos.of_nat (16 * b)) by (unfold f_natoms; cbn [piece_frag f_blocks]; rewrite Qb; reflexivity).
  destruct (frag_sound RD WR sect bv (piece_frag q) Qfrag) with (st := st) (e0 := e0 st)
    as (st' & env & ST & TR & IR & [ER EA] & PC & GR & (VR & VL) & CE & DG & FR).
  - rewrite RG. exact std_layout.
  - exact (e0_range st SN).
  - cbn [piece_frag f_entry]. destruct (p_pc (q_from q)); try discriminate. exact Hpc.
  - intros env _. exact (Hg env).
  - intros env _. exact (Hv env).
  - intros env [ER EA]. rewrite RG. rewrite NA in EA. cbn [piece_frag f_cells]. rewrite Qc, Qb. apply Forall_app. split; [|apply Forall_app; split].
    + apply Forall_flat_map. apply Forall_forall. intros s I. apply section_cells_ok; assumption.
    + apply (atom_cells_ok st env (16 * b) 1); [lia|exact ER|]. intros j J. apply EA. lia.
    + apply (saved_cells_ok st env); assumption.
  - intros env _. exact (Hco env).
  - rewrite RG in CE, FR, IR. cbn [piece_frag f_pc' f_gpr' f_vec' f_cells' f_blocks] in *. rewrite Qb in DG.
    assert (SN' : sane st') by exact (steps_sane _ st st' SN (proj1 (walk_steps _ _ _ _ _ _ _ _ _ ST))).
    exists (length (f_seen (piece_frag q))), st'. split; [exact ST|]. split; [rewrite TR; apply view_near; exact IR|].
    assert (OW' : forall x, mem st' x = mem st x \/ exists k o, 0 <= o < rwr (rg rgs k) /\ x = bv k + o).
    { intros x. destruct (existsb (fun k => (0 <=? x - bv k) && (x - bv k <? rwr (rg rgs k))) (seq 0 8)) eqn:E.
      - right. apply existsb_exists in E as (k1 & _ & E). exists k1, (x - bv k1). lia.
      - left. apply FR. intros k1 o O. pose proof (rwr_le k1). rewrite ad_plain by lia. intros ->.
        assert (L : (k1 < 8)%nat). { destruct (Nat.lt_ge_cases k1 8); [assumption|]. rewrite rg_none in O by assumption. cbn [rwr no_region] in O. lia. }
        assert (X : existsb (fun k => (0 <=? bv k1 + o - bv k) && (bv k1 + o - bv k <? rwr (rg rgs k))) (seq 0 8) = true); [|congruence].
        apply existsb_exists. exists k1. split; [apply in_seq; lia|]. lia. }
    assert (U' : unchanged st').
    { intros x X. rewrite Forall_forall in X. destruct (OW' x) as [->|(k1 & o & O & ->)].
      - apply U. apply Forall_forall. exact X.
      - exfalso. destruct (wr_area k1 o O) as (a & j & A & I & _). exact (X a (nth_error_In _ _ A) I). }
    split; [split; [|split; [exact U'|]]|].
    + constructor; [exact (proj1 SN')|exact (proj1 (proj2 SN'))|exact VL| |exact (proj2 (proj2 SN'))].
      clear -VR. induction VR as [|l v ls vs [L F] VR IH]; constructor; auto. rewrite <- (F2_length _ _ _ F). exact L.
    + intros i I. destruct (Z_lt_ge_dec i d) as [LT|GE].
      * rewrite <- SF by lia. apply bytes_at_ext. intros x X. destruct (OW' x) as [E|(k1 & o & O & ->)]; [exact E|]. exfalso.
        pose proof (C_owned _ _ _ _ _ _ _ _ HC) as FO.
        assert (IO : inside (bv k1 + o) (out, 32 * n)) by (unfold inside; cbn [fst snd]; lia).
        destruct (wr_area k1 o O) as (a & j & A & J & [[-> ->]|[[-> ->]|(C1 & C2 & C3 & C4)]]).
        -- exact (FOP_nth _ _ FO 0%nat 1%nat _ _ ltac:(lia) A eq_refl _ J IO).
        -- rewrite bv_out in X. rewrite rg_out in O. cbn [rwr] in O. lia.
        -- exact (FOP_nth _ _ FO 1%nat j _ _ ltac:(lia) eq_refl A _ IO J).
      * cbv zeta in DG. rewrite blocks_digest_length, env_words_mws in DG. change (offp 1) with 0 in DG.
        set (i' := Z.to_nat (i - d)). assert (I' : (i' < b)%nat) by lia.
        pose proof (digest_blocks bv (mem st) (mem st') 5 6 b 0 0 DG i' I') as E.
        destruct (space _ in_inp) as [S1 S2]. destruct (space _ in_out) as [S3 S4]. cbn [fst snd] in *.
        apply digest_bytes in E; rewrite ?bv_in, ?bv_out; try lia; [|exact (proj2 (proj2 SN))|exact (proj2 (proj2 SN'))].
        rewrite bv_in, bv_out in E. replace (out + 32 * i) with (out + 32 * d + (0 + 32 * Z.of_nat i')) by lia. rewrite E.
        f_equal. replace (inp + 64 * i) with (inp + 64 * d + (0 + 64 * Z.of_nat i')) by lia.
        apply (kept_bytes st (inp, 64 * n)); [exact U|right; left; reflexivity|cbn [fst snd]; lia|cbn [fst snd]; lia].
    + split; [exact PC|]. split; [intros env'; exact (F2_plain env env' _ _ Qt1 GR)|].
      split; [intros env'; exact (vec_plain env env' _ Qt3 _ VR)|]. exact (saved_cells_get st' env _ SN' Qt4 CE).
Qed.
End Progress.
