(** blm_init_crt: partial and total correctness, termination. *)
From Coq Require Import NArith List Bool Arith Lia ZifyN ZifyNat ZifyBool.
From Verif Require Import Base Spec PolyFacts MatFacts SliceMul KaraProofs IrrProofs Gf2eModel IrrTable MzdModel MzedSpec LinSpec SliceModel SliceSpec MzdFacts SliceProofs MzedProofs MzedOps2 PermModel PleSpec DjbModel DjbSpec BlmTable BlmModel BlmSpec BlmFacts BlmCrt BlmFG BlmFin BlmMult BlmApply.
Import ListNotations.
Local Open Scope nat_scope.

Lemma mul_shape ff nf ng f : multiplies ff nf ng f -> blm_shape f.
Proof. intros (A & B & C & _ & _ & D & E & _). exact (conj A (conj B (conj C (conj D E)))). Qed.
Lemma product_bit nf ng i : 1 <= nf -> 1 <= ng -> i < nf + ng - 1 ->
  exists a b, (a < 2 ^ N.of_nat nf)%N /\ (b < 2 ^ N.of_nat ng)%N /\ pmul a b = (2 ^ N.of_nat i)%N.
Proof.
  intros Hf Hg Hi. exists (2 ^ N.of_nat (Nat.min i (nf - 1)))%N, (2 ^ N.of_nat (i - Nat.min i (nf - 1)))%N.
  split; [apply N.pow_lt_mono_r; lia|]. split; [apply N.pow_lt_mono_r; lia|]. rewrite pmul_pow2_l, N.shiftl_mul_pow2, <- N.pow_add_r. f_equal. lia.
Qed.
Lemma mul_rows_nonzero ff nf ng f : ff_fits ff -> multiplies ff nf ng f -> 1 <= nf -> 1 <= ng -> mzd_nrows (bl_H f) <= nf + ng - 1 -> rows_nonzero (bl_H f).
Proof.
  intros Hff (WF & WG & WH & CF & CG & RG & CH & RH & HM) Hf Hg Hd i Hi. destruct (product_bit nf ng i Hf Hg ltac:(lia)) as (a & b & Ha & Hb & E).
  specialize (HM a b Ha Hb). rewrite E in HM.
  assert (Hbit : N.testbit (bilinear (bl_F f) (bl_G f) (bl_H f) a b) (N.of_nat i) = true).
  { rewrite HM. destruct ff as [k|]; [|apply N.pow2_bits_true]. destruct Hff as [D1 Hdeg]. rewrite pmod_small; [apply N.pow2_bits_true|intros E0; rewrite E0 in Hdeg; cbn in Hdeg; lia|]. rewrite Hdeg. apply N.pow_lt_mono_r; lia. }
  rewrite testbit_bilinear in Hbit. apply andb_prop in Hbit. destruct Hbit as [_ Hbit].
  destruct (existsb (fun k => mbit (bl_H f) i k) (seq 0 (mzd_nrows (bl_F f)))) eqn:Ee.
  - apply existsb_exists in Ee. destruct Ee as (k & Hk & Ek). apply in_seq in Hk. exists k. split; [lia|easy].
  - rewrite bxsum_0 in Hbit; [discriminate Hbit|]. intros k Hk. apply andb_false_intro1. destruct (mbit (bl_H f) i k) eqn:Ek; [|easy].
    rewrite <- Ee. symmetry. apply existsb_exists. exists k. split; [apply in_seq; lia|easy].
Qed.
Theorem apply_blm_ok ff nf ng X A B f m k n : ff_fits ff -> multiplies ff nf ng f -> usable f -> 1 <= nf -> 1 <= ng -> mzd_nrows (bl_H f) <= nf + ng - 1 ->
  shape X m n -> shape A m k -> shape B k n -> length A = nf -> length B = ng -> mzd_nrows (bl_H f) <= length X ->
  wp (ptr_apply_blm X A B f) (fun X' => lbec X X' (fun i c => N.lxor (kept f (pv X i c)) (xsum k (fun t => redp ff (pmul (pv A i t) (pv B t c)))))).
Proof.
  intros Hff HM HU Hf Hg Hh SX SA SB LA LB LX. pose proof (mul_shape _ _ _ _ HM) as HS. pose proof (mul_rows_nonzero _ _ _ _ Hff HM Hf Hg Hh) as HN.
  destruct HM as (_ & _ & _ & CF & CG & _ & _ & _ & HM).
  assert (HP : forall i c, blm_prod f k A B i c = xsum k (fun t => redp ff (pmul (pv A i t) (pv B t c)))).
  { intros i c. unfold blm_prod. apply xsum_ext. intros t Ht. rewrite HM; [now destruct ff|rewrite <- LA; apply pv_lt|rewrite <- LB; apply pv_lt]. }
  unfold ptr_apply_blm, kept. destruct (bl_f f) eqn:Ef.
  - destruct HU as [HU|HU]; [congruence|]. eapply wp_mono; [apply (apply_djb_ok X A B f m k n); auto; lia|]. cbv beta. intros X' HX. eapply lbec_ext; [exact SX|exact HX|]. cbv beta. intros i c _ _. now rewrite HP.
  - eapply wp_mono; [apply (apply_mzd_ok X A B f m k n); auto; lia|]. cbv beta. intros X' HX. eapply lbec_ext; [exact SX|exact HX|]. cbv beta. intros i c _ _. now rewrite HP.
Qed.

(** ** compiling *)
Lemma compile_bits M M' d : mzd_nrows M = mzd_nrows M' -> mzd_ncols M = mzd_ncols M' -> (forall i j, i < mzd_nrows M -> j < mzd_ncols M -> mbit M i j = mbit M' i j) ->
  compile_contract M d -> compile_contract M' d.
Proof.
  intros E1 E2 E (C1 & C2 & C3 & C4). split; [congruence|]. split; [congruence|]. rewrite <- E1, <- E2. split; [easy|]. intros t Ht. specialize (C4 t Ht). destruct (written (dj_prog d) t).
  - intros v w. rewrite C4. apply bxsum_ext. intros j Hj. now rewrite E.
  - intros j Hj. rewrite <- E by easy. now apply C4.
Qed.
Lemma djb_compile_ok x f : m4ri_ok x -> wf_mzd (bl_F f) -> wf_mzd (bl_G f) -> wf_mzd (bl_H f) -> bl_f f = None -> bl_g f = None -> bl_h f = None ->
  wp (blm_djb_compile x f) (fun f' => bl_F f' = bl_F f /\ bl_G f' = bl_G f /\ bl_H f' = bl_H f /\ compiled f').
Proof.
  intros (_ & _ & Hc) WF WG WH E1 E2 E3. unfold blm_djb_compile. rewrite E1, E2, E3. cbn [wp bl_F bl_G bl_H]. split; [easy|]. split; [easy|]. split; [easy|].
  unfold compiled. cbn [bl_f bl_g bl_h bl_F bl_G bl_H]. do 3 eexists. split; [reflexivity|]. split; [reflexivity|]. split; [reflexivity|]. split; [now apply Hc|]. split; [|now apply Hc].
  unfold mzd_equal. destruct (mzd_cmp (bl_F f) (bl_G f)) eqn:Ec; [|now apply Hc|now apply Hc].
  apply mzd_cmp_eq in Ec. destruct Ec as (N1 & N2 & N3). apply (compile_bits (bl_F f)); auto.
Qed.
(** ** initialisation *)
Definition good_map (ff : option gf2e) (nf ng : nat) (djb : bool) (f : blm) : Prop :=
  multiplies ff nf ng f /\ if djb then compiled f else bl_f f = None /\ bl_g f = None /\ bl_h f = None.
Lemma finish_good fuel x ff F G nf ng djb : m4ri_ok x -> ff_fits ff -> wf_mzd F -> wf_mzd G -> mzd_nrows G = mzd_nrows F -> mzd_ncols F = nf -> mzd_ncols G = ng ->
  1 <= nf <= ng -> determined (mzd_nrows F) nf ng (mbit F) (mbit G) ->
  match (match blm_finish_polymult fuel x ff (Blm F G (mzd_init 0 0) None None None) with
         | None => None | Some r => Some (f <- r ;; if djb : bool then blm_djb_compile x f else Ok f) end) with
  | None => True
  | Some r => exists f, r = Ok f /\ good_map ff nf ng djb f
  end.
Proof.
  intros Hx Hff WF WG RG CF CG Hn HD. pose proof (finish_multiplies fuel x ff F G (mzd_init 0 0) nf ng Hx Hff WF WG RG CF CG Hn HD) as HM.
  destruct (blm_finish_polymult fuel x ff _) as [r|]; [|easy]. destruct HM as (H & -> & HM). cbn [bind]. destruct djb.
  - destruct HM as (M1 & M2 & M3 & M4). destruct (proj1 (wp_iff _ _) (djb_compile_ok x (Blm F G H None None None) Hx M1 M2 M3 eq_refl eq_refl eq_refl)) as (f' & E & E1 & E2 & E3 & E4).
    exists f'. split; [exact E|]. split; [|exact E4]. unfold multiplies. rewrite E1, E2, E3. split; [exact M1|]. split; [exact M2|]. split; [exact M3|]. exact M4.
  - eexists. split; [reflexivity|]. split; [exact HM|]. cbn [bl_f bl_g bl_h]. auto.
Qed.
Theorem init_crt_partial fuel x ff nf ng p djb : m4ri_ok x -> ff_fits ff -> 1 <= nf <= ng -> covers nf ng p ->
  forall r, blm_init_crt fuel x ff nf ng p djb = Some r -> match r with Ok f => good_map ff nf ng djb f | _ => crt_FG nf ng p = Die \/ crt_FG nf ng p = UB end.
Proof.
  intros Hx Hff Hn Hc r E. unfold blm_init_crt in E. pose proof (crt_FG_determined nf ng p ltac:(lia) ltac:(lia)) as HD.
  destruct (crt_FG nf ng p) as [[F G]| |]; [|injection E as <-; auto|injection E as <-; auto]. cbn [wlp] in HD. destruct HD as ((WF & WG & CF & CG & _ & RG & _) & HD). specialize (HD Hc).
  pose proof (finish_good fuel x ff F G nf ng djb Hx Hff WF WG RG CF CG Hn HD) as HG. rewrite E in HG. destruct HG as (f & -> & HG). exact HG.
Qed.
Theorem init_crt_safe fuel x ff nf ng p djb : m4ri_ok x -> ff_fits ff -> 1 <= nf <= ng -> covers nf ng p -> scheme p -> nth 0 p 0 <= nf ->
  forall r, blm_init_crt fuel x ff nf ng p djb = Some r -> exists f, r = Ok f /\ good_map ff nf ng djb f.
Proof.
  intros Hx Hff Hn Hc Hs H0 r E. pose proof (init_crt_partial fuel x ff nf ng p djb Hx Hff Hn Hc r E) as HP.
  destruct (proj1 (wp_iff _ _) (crt_FG_total nf ng p Hs H0 ltac:(lia))) as ([F G] & EFG & _). rewrite EFG in HP. destruct r as [f| |]; [|destruct HP; discriminate|destruct HP; discriminate]. eauto.
Qed.

(** ** termination *)
Definition terminates (nf ng : nat) (p : list nat) : Prop := exists F G, crt_FG nf ng p = Ok (F, G) /\ spans F G (mzd_nrows F) nf ng.
Theorem init_crt_total fuel x ff nf ng p djb : m4ri_ok x -> ff_fits ff -> 1 <= nf <= ng -> covers nf ng p -> terminates nf ng p -> nf * ng + ng <= fuel ->
  exists f, blm_init_crt fuel x ff nf ng p djb = Some (Ok f) /\ good_map ff nf ng djb f.
Proof.
  intros Hx Hff Hn Hc (F & G & EFG & HS) Hfuel. destruct (blm_init_crt fuel x ff nf ng p djb) as [r|] eqn:E.
  - pose proof (init_crt_partial fuel x ff nf ng p djb Hx Hff Hn Hc r E) as HP. rewrite EFG in HP. destruct r as [f| |]; [|destruct HP; discriminate|destruct HP; discriminate]. eauto.
  - exfalso. pose proof (crt_FG_determined nf ng p ltac:(lia) ltac:(lia)) as HD. unfold blm_init_crt in E. rewrite EFG in E, HD. cbn [wlp] in HD. destruct HD as ((WF & WG & CF & CG & _ & RG & _) & _).
    set (m := mzd_nrows F) in *. unfold blm_finish_polymult in E. cbn [bl_F bl_G] in E. rewrite CF, CG in E. fold m in E. fold (init_state m) in E.
    destruct (loop_total x F G m nf ng Hx eq_refl RG CF CG ltac:(lia) ltac:(lia) HS fuel (init_state m)) as (s & Es & _).
    + apply (init_ok F G m nf ng eq_refl RG CF CG); lia.
    + intros ab (_ & Hb). cbn [init_state fs_v fs_w fst snd] in Hb. lia.
    + unfold mu, init_state. cbn [fs_v fs_w]. lia.
    + rewrite Es in E. discriminate E.
Qed.
(** a non-zero vector orthogonal to all points: the loop of blm_finish_polymult never reaches full rank *)
Definition diverges (nf ng : nat) (p : list nat) : Prop := exists F G, crt_FG nf ng p = Ok (F, G) /\
  exists y : nat -> bool, (exists k, k < mzd_nrows F /\ y k = true) /\ forall vw, in_tri nf ng vw -> bxsum (mzd_nrows F) (fun k => cval F G vw k && y k) = false.
Theorem init_crt_diverges fuel x ff nf ng p djb : m4ri_ok x -> 1 <= nf <= ng -> diverges nf ng p -> blm_init_crt fuel x ff nf ng p djb = None.
Proof.
  intros Hx Hn (F & G & EFG & y & Hy & Hz). unfold blm_init_crt. rewrite EFG. pose proof (crt_FG_determined nf ng p ltac:(lia) ltac:(lia)) as HD. rewrite EFG in HD. cbn [wlp] in HD. destruct HD as ((WF & WG & CF & CG & _ & RG & _) & _).
  set (m := mzd_nrows F) in *. unfold blm_finish_polymult. cbn [bl_F bl_G]. rewrite CF, CG. fold m. fold (init_state m).
  destruct (finish_loop fuel x m nf ng (mzd_transpose F) (mzd_transpose G) (init_state m)) eqn:E; [|easy]. exfalso.
  apply (loop_stuck x F G m nf ng Hx WG eq_refl RG CF CG ltac:(lia) ltac:(lia) y fuel (init_state m) Hy Hz); [now rewrite E|apply (init_ok F G m nf ng eq_refl RG CF CG); lia].
Qed.
