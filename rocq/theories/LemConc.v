(** A thread that stays within its areas is not disturbed by another that stays off them. *)
From Coq Require Import ZArith String List Bool Lia ZifyBool ZifyNat.
From Verif Require Import Base SpecSha ModelX86 ModelImage LemBase SymX86 LemSymX86 LemSymFrag LemX86 SpecAsm LemDigest LemPiece LemAsm LemAsm8 ModelHasher LemHasher SpecConc.
Import ListNotations.
Open Scope list_scope.
Open Scope Z_scope.
Ltac Zify.zify_post_hook ::= Z.div_mod_to_equations.

(** ** One instruction *)
Section Frame.
Variables rd wr RD WR : Z -> bool.
Variable sect : nat -> Z.
Hypothesis wr_rd : forall x, wr x = true -> rd x = true.
Hypothesis rd_RD : forall x, rd x = true -> RD x = true.
Hypothesis wr_WR : forall x, wr x = true -> WR x = true.
Definition agree (m m' : Z -> Z) : Prop := forall x, rd x = true -> m' x = m x.
Lemma forallb_mono (p q : Z -> bool) l : (forall x, p x = true -> q x = true) -> forallb p l = true -> forallb q l = true.
Proof. intros H F. rewrite forallb_forall in *. auto. Qed.
Lemma load_frame m m' a n v : agree m m' -> load rd m a n = Some v -> load RD m' a n = Some v.
Proof.
  intros A. unfold load. destruct (forallb rd (addrs a n)) eqn:E; [|discriminate]. intros L.
  rewrite (forallb_mono rd RD _ rd_RD E). rewrite <- L. f_equal. apply map_ext_in. intros x X. apply A.
  rewrite forallb_forall in E. exact (E x X).
Qed.
Lemma load_int_frame m m' a n v : agree m m' -> load_int rd m a n = Some v -> load_int RD m' a n = Some v.
Proof.
  intros A. unfold load_int. destruct (load rd m a n) as [l|] eqn:E; [|discriminate]. intros L.
  rewrite (load_frame m m' a n l A E). exact L.
Qed.
Lemma load_vec_frame k m m' a v : agree m m' -> load_vec rd k m a = Some v -> load_vec RD k m' a = Some v.
Proof.
  intros A. unfold load_vec. destruct (load rd m a _) as [l|] eqn:E; [|discriminate]. intros L.
  rewrite (load_frame m m' a _ l A E). exact L.
Qed.
Definition after (m m' m1 m1' : Z -> Z) : Prop :=
  agree m1 m1' /\ (forall x, wr x = false -> m1 x = m x /\ m1' x = m' x).
Lemma put_in m a bs x : put m a bs x = m x \/ In x (addrs a (length bs)).
Proof.
  unfold put. cbv zeta. destruct (_ && _) eqn:E; [right|left; reflexivity].
  apply in_map_iff. exists (Z.to_nat (w64 (x - a))). unfold zlen, w64 in *. split; [|apply in_seq; lia].
  rewrite Z2Nat.id by lia. rewrite Zplus_mod_idemp_r. replace (a + (x - a)) with x by lia. apply Z.mod_small. lia.
Qed.
Lemma store_frame m m' a bs m1 : agree m m' -> store wr m a bs = Some m1 ->
  exists m1', store WR m' a bs = Some m1' /\ after m m' m1 m1'.
Proof.
  intros A. unfold store. destruct (forallb wr (addrs a (length bs))) eqn:E; [|discriminate]. intros L. apply some_inj in L. subst m1.
  rewrite (forallb_mono wr WR _ wr_WR E). exists (put m' a bs). split; [reflexivity|]. split.
  - intros x X. unfold put. cbv zeta. destruct (_ && _); [reflexivity|]. exact (A x X).
  - intros x X. assert (N : ~ In x (addrs a (length bs))).
    { intros I. rewrite forallb_forall in E. rewrite (E x I) in X. discriminate X. }
    split; [destruct (put_in m a bs x)|destruct (put_in m' a bs x)]; tauto.
Qed.
Lemma after_refl m m' : agree m m' -> after m m' m m'.
Proof. intros A. split; [exact A|]. intros x _. split; reflexivity. Qed.
Lemma readv_frame k st o m' v : agree (mem st) m' -> readv rd sect k st o = Some v -> readv RD sect k (setm m' st) o = Some v.
Proof.
  intros A. destruct o as [r|a]; [exact (fun H => H)|]. unfold readv. cbv zeta.
  replace (ea sect (setm m' st) a) with (ea sect st a) by (destruct a; reflexivity). cbn [setm mem].
  destruct k; [apply load_vec_frame; exact A|apply load_vec_frame; exact A|].
  destruct (aligned_ok SSE (ea sect st a)); [apply load_vec_frame; exact A|discriminate].
Qed.
Lemma read32_frame st o m' v : agree (mem st) m' -> read32 rd sect st o = Some v -> read32 RD sect (setm m' st) o = Some v.
Proof.
  intros A. destruct o as [r|a]; [exact (fun H => H)|]. unfold read32.
  replace (ea sect (setm m' st) a) with (ea sect st a) by (destruct a; reflexivity). cbn [setm mem]. apply load_int_frame. exact A.
Qed.
(** the step of [st] carried over to the memory [m'] *)
Definition same (st st1 : state) (m' : Z -> Z) (r : option state) : Prop :=
  exists m1', r = Some (setm m1' st1) /\ after (mem st) m' (mem st1) m1'.
Lemma same_pure st st1 m' r : agree (mem st) m' -> r = Some (setm m' st1) -> mem st1 = mem st -> same st st1 m' r.
Proof. intros A -> E. exists m'. split; [reflexivity|]. rewrite E. apply after_refl, A. Qed.
Ltac pure A H := apply some_inj in H; subst; apply (same_pure _ _ _ _ A); reflexivity.
Lemma exec_frame code i st st1 m' : agree (mem st) m' -> exec rd wr sect code i st = Some st1 ->
  same st st1 m' (exec RD WR sect code i (setm m' st)).
Proof.
  intros A H.
  assert (EA : forall a, ea sect (setm m' st) a = ea sect st a) by (intros []; reflexivity).
  assert (JMP : forall l, jump code l st = Some st1 -> same st st1 m' (jump code l (setm m' st))).
  { intros l J. unfold jump in *. destruct (find_label l code 0); [|discriminate J]. cbn [option_map] in *. pure A J. }
  assert (JIF : forall f l, jump_if code f l st = Some st1 -> same st st1 m' (jump_if code f l (setm m' st))).
  { intros f l J. unfold jump_if in *. cbn [setm flags]. destruct (flags st) as [fl|]; [|discriminate J]. cbn [obind] in *.
    destruct (f fl); [exact (JMP l J)|]. pure A J. }
  assert (PUSH : forall x s, push wr x st = Some s -> exists m1', push WR x (setm m' st) = Some (setm m1' s) /\ after (mem st) m' (mem s) m1').
  { intros x s P. unfold push in *. change (getr (setm m' st) rsp) with (getr st rsp). cbv zeta in *. cbn [setm mem] in *.
    destruct (store wr (mem st) _ _) as [m1|] eqn:E; [|discriminate P]. cbn [obind] in P. apply some_inj in P. subst s.
    destruct (store_frame _ m' _ _ _ A E) as (m1' & S & F). rewrite S. cbn [obind]. exists m1'. split; [reflexivity|exact F]. }
  assert (STO : forall a bs g, (forall m s, mem (g m s) = m) -> (forall m m0 s, g m (setm m0 s) = setm m (g m s)) -> (forall m m0 s, setm m (g m0 s) = g m s) ->
    obind (store wr (mem st) a bs) (fun m => Some (g m st)) = Some st1 ->
    same st st1 m' (obind (store WR m' a bs) (fun m => Some (g m (setm m' st))))).
  { intros a bs g G1 G2 G3 E. destruct (store wr (mem st) a bs) as [m1|] eqn:E1; [|discriminate E]. cbn [obind] in E. apply some_inj in E. subst st1.
    destruct (store_frame _ m' _ _ _ A E1) as (m1' & S & F). rewrite S. cbn [obind]. exists m1'. rewrite G2, !G3. split; [reflexivity|].
    rewrite G1. exact F. }
  assert (LDI : forall a k g, (forall v m s, setm m (g v s) = g v (setm m s)) -> (forall v s, mem (g v s) = mem s) ->
    obind (load_int rd (mem st) a k) (fun v => Some (g v st)) = Some st1 ->
    same st st1 m' (obind (load_int RD m' a k) (fun v => Some (g v (setm m' st))))).
  { intros a k g G1 G2 E. destruct (load_int rd (mem st) a k) as [v|] eqn:E1; [|discriminate E]. cbn [obind] in E. apply some_inj in E. subst st1.
    rewrite (load_int_frame _ m' _ _ _ A E1). cbn [obind]. rewrite <- G1. apply (same_pure _ _ _ _ A); [reflexivity|]. apply G2. }
  destruct i; cbn [exec] in *; rewrite ?EA; cbn [setm mem] in *.
  - destruct (read32 rd sect st s) as [y|] eqn:E; [|discriminate H]. cbn [obind] in H. fold (setm m' st). rewrite (read32_frame _ _ m' _ A E). cbn [obind]. pure A H.
  - exact (STO _ _ (fun m s => next (setm m s)) (fun _ _ => eq_refl) (fun _ _ _ => eq_refl) (fun _ _ _ => eq_refl) H).
  - pure A H.
  - pure A H.
  - destruct (push wr (getr st r) st) as [s|] eqn:E; [|discriminate H]. cbn [obind] in H. apply some_inj in H. subst st1.
    destruct (PUSH _ _ E) as (m1' & P & F). fold (setm m' st). change (getr (setm m' st) r) with (getr st r). rewrite P. cbn [obind].
    exists m1'. split; [reflexivity|exact F].
  - exact (LDI _ _ (fun x s => next (setr r x (setr rsp (w64 (getr st rsp + 8)) s))) (fun _ _ _ => eq_refl) (fun _ _ => eq_refl) H).
  - pure A H.
  - exact (LDI _ _ (fun x s => next (setr d x s)) (fun _ _ _ => eq_refl) (fun _ _ => eq_refl) H).
  - exact (STO _ _ (fun m s => next (setm m s)) (fun _ _ => eq_refl) (fun _ _ _ => eq_refl) (fun _ _ _ => eq_refl) H).
  - pure A H.
  - pure A H.
  - pure A H.
  - exact (LDI _ _ (fun y s => next (setf None (setr d (Z.land (getr st d) y) s))) (fun _ _ _ => eq_refl) (fun _ _ => eq_refl) H).
  - pure A H.
  - pure A H.
  - pure A H.
  - destruct (readv rd sect k st s2) as [y|] eqn:E; [|discriminate H]. cbn [obind] in H. fold (setm m' st). rewrite (readv_frame _ _ _ m' _ A E). cbn [obind]. pure A H.
  - pure A H.
  - cbv zeta in *. rewrite ?EA. destruct (aligned && _); [discriminate H|].
    destruct (load_vec rd k (mem st) _) as [y|] eqn:E; [|discriminate H]. cbn [obind] in H. rewrite (load_vec_frame _ _ m' _ _ A E). cbn [obind]. pure A H.
  - cbv zeta in *. destruct (aligned && _); [discriminate H|].
    exact (STO _ _ (fun m s => next (setm m s)) (fun _ _ => eq_refl) (fun _ _ _ => eq_refl) (fun _ _ _ => eq_refl) H).
  - destruct (load_vec rd V128 (mem st) _) as [y|] eqn:E; [|discriminate H]. cbn [obind] in H. rewrite (load_vec_frame _ _ m' _ _ A E). cbn [obind]. pure A H.
  - pure A H.
  - pure A H.
  - pure A H.
  - exact (JMP l H).
  - exact (JIF _ l H).
  - exact (JIF _ l H).
  - exact (JIF _ l H).
  - destruct (push wr (pc st + 1) st) as [s|] eqn:E; [|discriminate H]. cbn [obind] in H.
    destruct (PUSH _ _ E) as (m1' & P & F). fold (setm m' st). change (pc (setm m' st)) with (pc st). rewrite P. cbn [obind].
    unfold jump in *. destruct (find_label l code 0); [|discriminate H]. cbn [option_map] in *. apply some_inj in H. subst st1.
    exists m1'. split; [reflexivity|exact F].
  - exact (LDI _ _ (fun x s => setpc x (setr rsp (w64 (getr st rsp + 8)) s)) (fun _ _ _ => eq_refl) (fun _ _ => eq_refl) H).
Qed.
Lemma step_frame code st st1 m' : agree (mem st) m' -> step rd wr sect code st = Some st1 ->
  exists m1', step RD WR sect code (setm m' st) = Some (setm m1' st1) /\ after (mem st) m' (mem st1) m1'.
Proof.
  intros A H. unfold step in *. change (pc (setm m' st)) with (pc st).
  destruct (fetch code (pc st)) as [i|]; [|discriminate H]. cbn [obind] in *. exact (exec_frame code i st st1 m' A H).
Qed.
End Frame.

(** ** Two threads *)
Definition regs_eq (a b : state) : Prop := forall m, setm m a = setm m b.
Lemma regs_refl a : regs_eq a a.
Proof. intros m. reflexivity. Qed.
Lemma regs_pc a b : regs_eq a b -> pc a = pc b.
Proof. intros H. exact (f_equal pc (H (fun _ => 0))). Qed.
Lemma regs_setm a b m : setm m a = b -> regs_eq b a.
Proof. intros <- m'. reflexivity. Qed.
Section Thread.
Variables rd wr RD WR : Z -> bool.
Variable sect : nat -> Z.
Hypothesis wr_rd : forall x, wr x = true -> rd x = true.
Hypothesis rd_RD : forall x, rd x = true -> RD x = true.
Hypothesis wr_WR : forall x, wr x = true -> WR x = true.
(** [t] is, with memory [m], where its own run was at [s]; [k] steps remain to [e] *)
Definition alike (k : nat) (s e t : state) (m : Z -> Z) : Prop :=
  steps rd wr sect image k s = Some e /\ fetch image (pc e) = None /\ regs_eq t s /\ agree rd (mem s) m.
Lemma alike_step k s e t m : alike k s e t m ->
  exists s' t' m', thread_step RD WR sect t m = Some (t', m') /\ alike (pred k) s' e t' m' /\
    (forall x, wr x = false -> m' x = m x).
Proof.
  intros (S & F & R & A). unfold thread_step. rewrite (regs_pc _ _ R). destruct k as [|k].
  - cbn [steps] in S. apply some_inj in S. subst s. rewrite F. exists e, t, m. repeat split; auto.
  - cbn [steps] in S. destruct (step rd wr sect image s) as [s1|] eqn:E; [|discriminate S]. cbn [obind] in S.
    destruct (fetch image (pc s)) as [i|] eqn:Fs; [|unfold step in E; rewrite Fs in E; discriminate E].
    destruct (step_frame rd wr RD WR sect wr_rd rd_RD wr_WR image s s1 m A E) as (m1 & E1 & A1 & A2).
    rewrite (R m), E1. cbn [option_map]. exists s1, (setm m1 s1), m1. split; [reflexivity|]. split.
    + split; [exact S|]. split; [exact F|]. split; [intros m2; reflexivity|exact A1].
    + intros x X. apply (A2 x X).
Qed.
Lemma alike_other k s e t m m' : (forall x, rd x = true -> m' x = m x) -> alike k s e t m -> alike k s e t m'.
Proof. intros H (S & F & R & A). repeat split; auto. intros x X. rewrite H by exact X. exact (A x X). Qed.
Lemma alike_done s e t m : alike 0 s e t m -> regs_eq t e /\ agree rd (mem e) m.
Proof. intros (S & F & R & A). cbn [steps] in S. apply some_inj in S. subst s. split; assumption. Qed.
End Thread.
Section Two.
Variables rd1 wr1 rd2 wr2 RD WR : Z -> bool.
Variable sect : nat -> Z.
Hypothesis wr_rd1 : forall x, wr1 x = true -> rd1 x = true.
Hypothesis wr_rd2 : forall x, wr2 x = true -> rd2 x = true.
Hypothesis rd1_RD : forall x, rd1 x = true -> RD x = true.
Hypothesis wr1_WR : forall x, wr1 x = true -> WR x = true.
Hypothesis rd2_RD : forall x, rd2 x = true -> RD x = true.
Hypothesis wr2_WR : forall x, wr2 x = true -> WR x = true.
Hypothesis off12 : forall x, rd2 x = true -> wr1 x = false.
Hypothesis off21 : forall x, rd1 x = true -> wr2 x = false.
Lemma two_run : forall sched k1 s1 e1 t1 k2 s2 e2 t2 m,
  alike rd1 wr1 sect k1 s1 e1 t1 m -> alike rd2 wr2 sect k2 s2 e2 t2 m ->
  exists s1' s2' t1' t2' m', interleave RD WR sect sched t1 t2 m = Some (t1', t2', m') /\
    alike rd1 wr1 sect (k1 - turns true sched) s1' e1 t1' m' /\
    alike rd2 wr2 sect (k2 - turns false sched) s2' e2 t2' m' /\
    (forall x, wr1 x = false -> wr2 x = false -> m' x = m x).
Proof.
  induction sched as [|w sched IH]; intros k1 s1 e1 t1 k2 s2 e2 t2 m A1 A2.
  - exists s1, s2, t1, t2, m. cbn [interleave]. change (turns true []) with 0%nat. change (turns false []) with 0%nat. rewrite !Nat.sub_0_r. auto.
  - destruct w; cbn [interleave].
    + destruct (alike_step rd1 wr1 RD WR sect wr_rd1 rd1_RD wr1_WR _ _ _ _ _ A1) as (s1' & t1' & m1 & E & A1' & K). rewrite E. cbn [obind fst snd].
      apply (alike_other rd2 wr2 sect _ _ _ _ m m1) in A2; [|intros x X; apply K, off12, X].
      destruct (IH _ _ _ _ _ _ _ _ _ A1' A2) as (u1 & u2 & v1 & v2 & m' & E' & B1 & B2 & K').
      exists u1, u2, v1, v2, m'. split; [exact E'|]. change (turns true (true :: sched)) with (S (turns true sched)).
      change (turns false (true :: sched)) with (turns false sched). replace (k1 - S (turns true sched))%nat with (pred k1 - turns true sched)%nat by lia.
      split; [exact B1|]. split; [exact B2|]. intros x X Y. rewrite K' by assumption. apply K, X.
    + destruct (alike_step rd2 wr2 RD WR sect wr_rd2 rd2_RD wr2_WR _ _ _ _ _ A2) as (s2' & t2' & m1 & E & A2' & K). rewrite E. cbn [obind fst snd].
      apply (alike_other rd1 wr1 sect _ _ _ _ m m1) in A1; [|intros x X; apply K, off21, X].
      destruct (IH _ _ _ _ _ _ _ _ _ A1 A2') as (u1 & u2 & v1 & v2 & m' & E' & B1 & B2 & K').
      exists u1, u2, v1, v2, m'. split; [exact E'|]. change (turns false (false :: sched)) with (S (turns false sched)).
      change (turns true (false :: sched)) with (turns true sched). replace (k2 - S (turns false sched))%nat with (pred k2 - turns false sched)%nat by lia.
      split; [exact B1|]. split; [exact B2|]. intros x X Y. rewrite K' by assumption. apply K, Y.
Qed.
End Two.

(** ** Two calls *)
Definition within_areas (l : list area) (x : Z) : bool := existsb (fun a => (fst a <=? x) && (x <? fst a + snd a)) l.
Lemma within_in l x : within_areas l x = true <-> exists a, In a l /\ inside x a.
Proof.
  unfold within_areas. rewrite existsb_exists. unfold inside. split; intros (a & A & I); exists a; (split; [exact A|lia]).
Qed.
Lemma call_tight RD WR sect f n st : call RD WR sect (r_consts f) (r_scratch f) (r_depth f) n st ->
  call (within_areas (used sect f n st)) (within_areas (owned sect (r_scratch f) (r_depth f) n st)) sect
    (r_consts f) (r_scratch f) (r_depth f) n st.
Proof.
  intros C. constructor; try (destruct C; assumption).
  - apply Forall_forall. intros a A x X. apply within_in. exists a. split; assumption.
  - apply Forall_forall. intros a A x X. apply within_in. exists a. split; assumption.
Qed.
(** what the call promises, of a thread's registers and the common memory *)
Definition finished (sect : nat -> Z) (f : routine) (n : Z) (a : state) (m : Z -> Z) (a' : state) (m' : Z -> Z) : Prop :=
  pc a' = le_val (bytes_at m (getr a rsp) 8) /\ getr a' rsp = getr a rsp + 8 /\
  Forall (fun r => getr a' r = getr a r) [rbx; rbp; r12; r13; r14; r15] /\
  forall i, 0 <= i < n -> bytes_at m' (getr a rdi + 32 * i) 32 = sha256 (bytes_at m (getr a rsi + 64 * i) 64).

Lemma solo RD WR sect f n a : is_routine f -> (f = sha256_1_avx -> n = 1) -> (f = sha256_1_avx \/ getr a rdx = n) ->
  call RD WR sect (r_consts f) (r_scratch f) (r_depth f) n a -> find_label (r_name f) image 0 = Some (pc a) ->
  fetch image (le_val (bytes_at (mem a) (getr a rsp) 8)) = None ->
  exists k e, alike (within_areas (used sect f n a)) (within_areas (owned sect (r_scratch f) (r_depth f) n a)) sect k a e a (mem a) /\
    forall t m', regs_eq t e -> agree (within_areas (used sect f n a)) (mem e) m' -> finished sect f n a (mem a) t m'.
Proof.
  intros F N1 N C L R. apply call_tight in C.
  destruct (routine_correct f n F _ _ sect a N1 N C L) as (k & e & S & E & H). exists k, e. split.
  - split; [exact S|]. split; [rewrite (E_pc _ _ _ _ _ _ E); exact R|]. split; [apply regs_refl|]. intros x _. reflexivity.
  - intros t m' Q A. assert (G : forall r, getr t r = getr e r).
    { intros r. exact (f_equal (fun s => getr s r) (Q (fun _ => 0))). }
    split; [rewrite (regs_pc _ _ Q); exact (E_pc _ _ _ _ _ _ E)|]. split; [rewrite G; exact (E_rsp _ _ _ _ _ _ E)|]. split.
    + pose proof (E_saved _ _ _ _ _ _ E) as V. rewrite Forall_forall in *. intros r I. rewrite G. exact (V r I).
    + intros i I. rewrite <- (H i I). apply bytes_at_ext. intros x X. apply A. apply within_in.
      exists (getr a rdi, 32 * n). split; [apply in_or_app; right; right; left; reflexivity|]. unfold inside. cbn [fst snd]. lia.
Qed.
Lemma keeps_off_within sect f n a g k b : keeps_off sect f n a g k b -> forall x,
  within_areas (used sect g k b) x = true -> within_areas (owned sect (r_scratch f) (r_depth f) n a) x = false.
Proof.
  intros K x U. destruct (within_areas (owned _ _ _ _ _) x) eqn:E; [exfalso|reflexivity].
  apply within_in in U as (u & U & IU). apply within_in in E as (o & O & IO).
  unfold keeps_off in K. rewrite Forall_forall in K. specialize (K o O). rewrite Forall_forall in K. exact (K u U x IO IU).
Qed.
Lemma within_perm (P : Z -> bool) l : Forall (fun a => forall x, inside x a -> P x = true) l -> forall x, within_areas l x = true -> P x = true.
Proof. intros F x X. apply within_in in X as (a & A & I). rewrite Forall_forall in F. exact (F a A x I). Qed.

Lemma owned_used sect f n st x : within_areas (owned sect (r_scratch f) (r_depth f) n st) x = true -> within_areas (used sect f n st) x = true.
Proof.
  rewrite !within_in. intros (a & A & I). exists a. split; [apply in_or_app; right; exact A|exact I].
Qed.
Lemma two_calls rd wr sect f g n1 n2 a b m :
  is_routine f -> (f = sha256_1_avx -> n1 = 1) -> (f = sha256_1_avx \/ getr a rdx = n1) ->
  is_routine g -> (g = sha256_1_avx -> n2 = 1) -> (g = sha256_1_avx \/ getr b rdx = n2) ->
  mem a = m -> mem b = m ->
  call rd wr sect (r_consts f) (r_scratch f) (r_depth f) n1 a -> find_label (r_name f) image 0 = Some (pc a) ->
  call rd wr sect (r_consts g) (r_scratch g) (r_depth g) n2 b -> find_label (r_name g) image 0 = Some (pc b) ->
  fetch image (le_val (bytes_at m (getr a rsp) 8)) = None -> fetch image (le_val (bytes_at m (getr b rsp) 8)) = None ->
  keeps_off sect f n1 a g n2 b -> keeps_off sect g n2 b f n1 a ->
  exists N, forall sched, exists a' b' m', interleave rd wr sect sched a b m = Some (a', b', m') /\
    ((N <= turns true sched)%nat -> finished sect f n1 a m a' m') /\
    ((N <= turns false sched)%nat -> finished sect g n2 b m b' m') /\
    (forall x, Forall (fun o => ~ inside x o) (owned sect (r_scratch f) (r_depth f) n1 a) ->
               Forall (fun o => ~ inside x o) (owned sect (r_scratch g) (r_depth g) n2 b) -> m' x = m x).
Proof.
  intros Ff Nf Cf Fg Ng Cg Ma Mb Ca La Cb Lb Ra Rb K1 K2. subst m.
  destruct (solo rd wr sect f n1 a Ff Nf Cf Ca La Ra) as (k1 & e1 & A1 & D1).
  rewrite <- Mb in Rb. destruct (solo rd wr sect g n2 b Fg Ng Cg Cb Lb Rb) as (k2 & e2 & A2 & D2). rewrite Mb in A2, D2.
  exists (k1 + k2)%nat. intros sched.
  destruct (two_run (within_areas (used sect f n1 a)) (within_areas (owned sect (r_scratch f) (r_depth f) n1 a))
    (within_areas (used sect g n2 b)) (within_areas (owned sect (r_scratch g) (r_depth g) n2 b)) rd wr sect
    (owned_used _ _ _ _) (owned_used _ _ _ _)
    (within_perm rd _ (C_read _ _ _ _ _ _ _ _ Ca)) (within_perm wr _ (C_write _ _ _ _ _ _ _ _ Ca))
    (within_perm rd _ (C_read _ _ _ _ _ _ _ _ Cb)) (within_perm wr _ (C_write _ _ _ _ _ _ _ _ Cb))
    (keeps_off_within _ _ _ _ _ _ _ K1) (keeps_off_within _ _ _ _ _ _ _ K2)
    sched k1 a e1 a k2 b e2 b (mem a) A1 A2) as (s1 & s2 & a' & b' & m' & E & B1 & B2 & K).
  exists a', b', m'. split; [exact E|]. split; [|split].
  - intros T. replace (k1 - turns true sched)%nat with 0%nat in B1 by lia. apply alike_done in B1 as [Q1 Q2]. exact (D1 a' m' Q1 Q2).
  - intros T. replace (k2 - turns false sched)%nat with 0%nat in B2 by lia. apply alike_done in B2 as [Q1 Q2]. exact (D2 b' m' Q1 Q2).
  - assert (NW : forall l x, Forall (fun o => ~ inside x o) l -> within_areas l x = false).
    { intros l x Fo. destruct (within_areas l x) eqn:W; [|reflexivity]. apply within_in in W as (o & O & I). rewrite Forall_forall in Fo. destruct (Fo o O I). }
    intros x X Y. apply K; apply NW; assumption.
Qed.
