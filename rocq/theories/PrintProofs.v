(** Proofs about printing. *)
From Coq Require Import NArith Lia List Bool Arith Ascii String.
From Coq Require Import ZifyBool ZifyNat ZifyN.
From Verif Require Import Base Spec PolyFacts Gf2xModel Gf2eModel Gf2eProofs MzdModel MzedModel MzedSpec SliceModel SliceSpec.
From Verif Require Import MzedProofs SliceProofs EchNaive PrintSpec PrintModel.
Import ListNotations.
Local Open Scope nat_scope.

(** ** numerals *)
Lemma pow16 n : (16 ^ N.of_nat (S n) = 16 * 16 ^ N.of_nat n)%N.
Proof. rewrite Nat2N.inj_succ, N.pow_succ_r'. reflexivity. Qed.
Lemma pow16_pos n : (0 < 16 ^ N.of_nat n)%N.
Proof. apply N.neq_0_lt_0. apply N.pow_nonzero. discriminate. Qed.
Lemma small_digit v w : (v < 16)%N -> numeral (S w) v = repeat " "%char w ++ [digit v].
Proof.
  intros Hv. unfold numeral. rewrite seq_S, map_app. cbn [plus map]. f_equal.
  - transitivity (map (fun _ : nat => " "%char) (seq 0 w)).
    + apply map_ext_in. intros k Hk. apply in_seq in Hk. unfold numeral_char.
      replace (S w - 1 - k) with (S (w - 1 - k)) by lia. rewrite pow16.
      rewrite (N.div_small v) by (pose proof (pow16_pos (w - 1 - k)); nia).
      cbn [N.eqb]. replace (k <? S w - 1) with true by (symmetry; apply Nat.ltb_lt; lia). reflexivity.
    + generalize 0. induction w as [|w IH]; intros b; cbn; [reflexivity|]. f_equal. apply IH.
  - unfold numeral_char. replace (S w - 1 - w) with 0 by lia. change (16 ^ N.of_nat 0)%N with 1%N. rewrite N.div_1_r.
    replace (w <? S w - 1) with false by (symmetry; apply Nat.ltb_ge; lia). rewrite andb_false_r. rewrite N.mod_small by exact Hv. reflexivity.
Qed.
Lemma numeral_S v w : (16 <= v)%N -> 1 <= w -> numeral (S w) v = numeral w (v / 16) ++ [digit (v mod 16)].
Proof.
  intros Hv Hw. unfold numeral. rewrite seq_S, map_app. cbn [plus map]. f_equal.
  - apply map_ext_in. intros k Hk. apply in_seq in Hk. unfold numeral_char.
    replace (S w - 1 - k) with (S (w - 1 - k)) by lia. rewrite pow16.
    rewrite <- N.div_div by (try discriminate; pose proof (pow16_pos (w - 1 - k)); lia).
    destruct (Nat.eq_dec k (w - 1)) as [->|Hne].
    + replace (w - 1 <? w - 1) with false by (symmetry; apply Nat.ltb_ge; lia). rewrite andb_false_r.
      replace (w - 1 - (w - 1)) with 0 by lia. change (16 ^ N.of_nat 0)%N with 1%N. rewrite N.div_1_r.
      assert (v / 16 <> 0)%N. { intros Hz. apply N.div_small_iff in Hz; [lia|discriminate]. }
      replace (v / 16 =? 0)%N with false by (symmetry; apply N.eqb_neq; assumption). reflexivity.
    + replace (k <? S w - 1) with true by (symmetry; apply Nat.ltb_lt; lia).
      replace (k <? w - 1) with true by (symmetry; apply Nat.ltb_lt; lia). reflexivity.
  - unfold numeral_char. replace (S w - 1 - w) with 0 by lia. change (16 ^ N.of_nat 0)%N with 1%N. rewrite N.div_1_r.
    replace (w <? S w - 1) with false by (symmetry; apply Nat.ltb_ge; lia). rewrite andb_false_r. reflexivity.
Qed.
Lemma hex_len fuel w v : (v < 16 ^ N.of_nat w)%N -> 1 <= w -> List.length (hex fuel v) <= w.
Proof.
  revert w v. induction fuel as [|fuel IH]; intros w v Hv Hw; cbn [hex]; [cbn; lia|].
  rewrite app_length. cbn [List.length]. destruct (N.eqb_spec (v / 16) 0) as [E|E]; [cbn; lia|].
  destruct w as [|w]; [lia|]. rewrite pow16 in Hv.
  assert (H1 : (v / 16 < 16 ^ N.of_nat w)%N) by (apply N.div_lt_upper_bound; [discriminate|exact Hv]).
  destruct w as [|w]. { cbn in H1. lia. }
  specialize (IH (S w) _ H1 ltac:(lia)). lia.
Qed.
Lemma hex_numeral fuel w v : (v < 16 ^ N.of_nat w)%N -> 1 <= w <= fuel ->
  repeat " "%char (w - List.length (hex fuel v)) ++ hex fuel v = numeral w v.
Proof.
  revert fuel v. induction w as [|w IH]; intros [|fuel] v Hv Hw; try lia. cbn [hex].
  destruct (N.eqb_spec (v / 16) 0) as [E|E].
  - apply N.div_small_iff in E; [|discriminate]. cbn [app List.length].
    rewrite (small_digit v w E). replace (S w - 1) with w by lia. rewrite N.mod_small by exact E. reflexivity.
  - rewrite pow16 in Hv.
    assert (H1 : (v / 16 < 16 ^ N.of_nat w)%N) by (apply N.div_lt_upper_bound; [discriminate|exact Hv]).
    destruct w as [|w]. { cbn in H1. lia. }
    rewrite numeral_S; [|destruct (N.lt_ge_cases v 16) as [X|X]; [rewrite N.div_small in E by exact X; congruence|exact X]|lia].
    rewrite <- (IH fuel (v / 16)%N H1 ltac:(lia)). rewrite app_length. cbn [List.length].
    replace (S (S w) - (List.length (hex fuel (v / 16)) + 1)) with (S w - List.length (hex fuel (v / 16))) by lia.
    rewrite <- app_assoc. reflexivity.
Qed.
Lemma printf_x_ok w v o : 1 <= w <= 8 -> (v < 16 ^ N.of_nat w)%N -> printf_x w v o = o ++ numeral w v.
Proof.
  intros Hw Hv. unfold printf_x. rewrite N.land_ones.
  rewrite (N.mod_small v).
  - now rewrite hex_numeral.
  - eapply N.lt_le_trans; [exact Hv|]. change 16%N with (2 ^ 4)%N. rewrite <- N.pow_mul_r. apply N.pow_le_mono_r; [discriminate|lia].
Qed.

(** ** the loops *)
Lemma separated_snoc l x : separated (l ++ [x]) = match l with [] => x | _ => separated l ++ " "%char :: x end.
Proof.
  induction l as [|a l IH]; [reflexivity|]. cbn [app]. destruct l as [|b l]; [reflexivity|].
  cbn [app] in *. change (separated (a :: b :: l ++ [x])) with (a ++ " "%char :: separated (b :: l ++ [x])).
  rewrite IH. change (separated (a :: b :: l)) with (a ++ " "%char :: separated (b :: l)). rewrite <- app_assoc. reflexivity.
Qed.
(** the elements of a row followed by blanks *)
Definition blanks (l : list text) : text := List.concat (map (fun x => x ++ [" "%char]) l).
Lemma blanks_sep l x : separated (l ++ [x]) = blanks l ++ x.
Proof.
  induction l as [|a l IH]; [reflexivity|]. cbn [app]. unfold blanks in *. cbn [map List.concat]. destruct l as [|b l].
  - cbn [app separated map List.concat]. rewrite <- !app_assoc. reflexivity.
  - change (separated (a :: (b :: l) ++ [x])) with (a ++ " "%char :: separated ((b :: l) ++ [x])). rewrite IH.
    rewrite <- !app_assoc. reflexivity.
Qed.
Section Loop.
Variables (rd : nat -> nat -> res N) (F : mat) (m n w : nat).
Hypothesis Hrd : forall i j, i < m -> j < n -> rd i j = Ok (F i j).
Hypothesis HF : forall i j, i < m -> j < n -> (F i j < 16 ^ N.of_nat w)%N.
Hypothesis Hw : 1 <= w <= 8.
Let row i k := map (fun j => numeral w (F i j)) (seq 0 k).
Lemma row_S i k : row i (S k) = row i k ++ [numeral w (F i k)].
Proof. unfold row. now rewrite seq_S, map_app. Qed.
Lemma blanks_S l x : blanks (l ++ [x]) = blanks l ++ x ++ [" "%char].
Proof. unfold blanks. rewrite map_app, concat_app. cbn [map List.concat]. now rewrite app_nil_r. Qed.
Lemma print_row i o : i < m ->
  wp (for_ 0 n (fun j o => tmp <- rd i j ;; let o := printf_x w tmp o in Ok (if j <? n - 1 then printf_lit " " o else o)) o)
     (fun o' => o' = o ++ separated (row i n)).
Proof.
  intros Hi. destruct n as [|n'] eqn:En.
  - cbn. now rewrite app_nil_r.
  - rewrite <- En in *. eapply wp_mono.
    + eapply (wp_for (fun k o' => o' = o ++ if k <? n then blanks (row i k) else separated (row i n))).
      * lia.
      * replace (0 <? n) with true by (symmetry; apply Nat.ltb_lt; lia). cbn. now rewrite app_nil_r.
      * intros j t Hj ->. replace (j <? n) with true by (symmetry; apply Nat.ltb_lt; lia).
        rewrite Hrd by lia. cbn [bind wp]. rewrite printf_x_ok by (auto; apply HF; lia). unfold printf_lit. cbn [list_ascii_of_string].
        destruct (Nat.ltb_spec j (n - 1)).
        -- replace (S j <? n) with true by (symmetry; apply Nat.ltb_lt; lia). rewrite row_S, blanks_S. rewrite <- !app_assoc. reflexivity.
        -- replace (S j <? n) with false by (symmetry; apply Nat.ltb_ge; lia). replace n with (S j) by lia.
           rewrite row_S, blanks_sep. rewrite <- !app_assoc. reflexivity.
    + cbv beta. intros t ->. now rewrite Nat.ltb_irrefl.
Qed.
Lemma print_loop o :
  wp (for_ 0 m (fun i o =>
    let o := printf_lit "[" o in
    o <- for_ 0 n (fun j o => tmp <- rd i j ;; let o := printf_x w tmp o in Ok (if j <? n - 1 then printf_lit " " o else o)) o ;;
    Ok (printf_lit newline (printf_lit "]" o))) o) (fun o' => o' = o ++ page w m n F).
Proof.
  eapply (wp_for (fun k o' => o' = o ++ page w k n F)); [lia|cbn; now rewrite app_nil_r|].
  intros i t Hi ->. cbv zeta. apply wp_bind. eapply wp_mono; [apply print_row; lia|]. cbv beta. intros t ->. cbn [wp].
  unfold page. rewrite seq_S, map_app, concat_app. cbn [plus map List.concat]. unfold printf_lit, line, row, newline. cbn [list_ascii_of_string].
  rewrite app_nil_r. rewrite <- !app_assoc. cbn [app]. rewrite <- ?app_assoc. reflexivity.
Qed.
End Loop.

Lemma width_ok ff w : gf2e_wf ff -> gf2e_degree_to_w ff = Ok w ->
  (if w mod 4 =? 0 then w / 4 else w / 4 + 1) = field_width (N.to_nat (pdeg (ff_minpoly ff))) /\
  (forall v, inF (ff_minpoly ff) v -> (v < 16 ^ N.of_nat (field_width (N.to_nat (pdeg (ff_minpoly ff)))))%N).
Proof.
  intros (Hd & Hp & _) E. rewrite Hp, Nat2N.id. unfold inF. rewrite Hp. clear Hp. unfold gf2e_degree_to_w in E.
  revert Hd E. generalize (ff_degree ff). clear ff. intros d Hd E.
  assert (C : d = 1 \/ d = 2 \/ d = 3 \/ d = 4 \/ d = 5 \/ d = 6 \/ d = 7 \/ d = 8 \/ d = 9 \/ d = 10 \/ d = 11 \/ d = 12 \/ d = 13 \/ d = 14 \/ d = 15 \/ d = 16) by lia.
  destruct C as [C|C]; [subst d; discriminate|].
  do 14 (destruct C as [C|C]; [subst d; injection E as <-; split; [reflexivity|]; intros v Hv; eapply N.lt_le_trans; [exact Hv|]; vm_compute; discriminate|]).
  subst d; injection E as <-; split; [reflexivity|]; intros v Hv; eapply N.lt_le_trans; [exact Hv|]; vm_compute; discriminate.
Qed.
Lemma field_width_range d : 1 <= field_width d <= 8.
Proof. unfold field_width. destruct (d <=? 4), (d <=? 8); lia. Qed.

Theorem mzed_print_ok A o : wf_mzed A ->
  mzed_print A o = Ok (o ++ page (field_width (N.to_nat (pdeg (fld A)))) (mz_nrows A) (mz_ncols A) (entry A)).
Proof.
  intros HA. pose proof HA as (Wff & Ww & _). destruct (width_ok _ _ Wff Ww) as (Ew & Hin).
  unfold mzed_print. cbv zeta. rewrite Ew.
  assert (X : wp (for_ 0 (mz_nrows A) (fun i o =>
    let o := printf_lit "[" o in
    o <- for_ 0 (mz_ncols A) (fun j o => tmp <- mzed_read_elem A i j ;; let o := printf_x (field_width (N.to_nat (pdeg (fld A)))) tmp o in Ok (if j <? mz_ncols A - 1 then printf_lit " " o else o)) o ;;
    Ok (printf_lit newline (printf_lit "]" o))) o) (fun o' => o' = o ++ page (field_width (N.to_nat (pdeg (fld A)))) (mz_nrows A) (mz_ncols A) (entry A))).
  { apply (print_loop (mzed_read_elem A) (entry A)).
    - intros i j Hi Hj. now apply mzed_read_elem_ok.
    - intros i j Hi Hj. apply Hin. now apply wf_inM.
    - apply field_width_range. }
  apply wp_iff in X. destruct X as (t & E & ->). exact E.
Qed.
Theorem mzd_slice_print_ok A o : wf_slice A -> 2 <= sl_depth A ->
  mzd_slice_print A o = Ok (o ++ page (field_width (N.to_nat (pdeg (sfld A)))) (sl_nrows A) (sl_ncols A) (sentry A)).
Proof.
  intros HA Hd. pose proof HA as (Wff & Dd & _).
  destruct (gf2e_degree_to_w_ok (sl_ff A)) as (w & Ww & _); [pose proof Wff as (X & _); lia|]. destruct (width_ok _ _ Wff Ww) as (Ew & Hin).
  unfold mzd_slice_print. rewrite Ww. cbn [bind]. cbv zeta. rewrite Ew.
  assert (X : wp (for_ 0 (sl_nrows A) (fun i o =>
    let o := printf_lit "[" o in
    o <- for_ 0 (sl_ncols A) (fun j o => tmp <- mzd_slice_read_elem A i j ;; let o := printf_x (field_width (N.to_nat (pdeg (sfld A)))) tmp o in Ok (if j <? sl_ncols A - 1 then printf_lit " " o else o)) o ;;
    Ok (printf_lit newline (printf_lit "]" o))) o) (fun o' => o' = o ++ page (field_width (N.to_nat (pdeg (sfld A)))) (sl_nrows A) (sl_ncols A) (sentry A))).
  { apply (print_loop (mzd_slice_read_elem A) (sentry A)).
    - intros i j Hi Hj. now apply slice_read_elem_ok.
    - intros i j Hi Hj. apply Hin. now apply sentry_in.
    - apply field_width_range. }
  apply wp_iff in X. destruct X as (t & E & ->). exact E.
Qed.

(** ** reading the text back *)
Lemma digit_inj a b : (a < 16)%N -> (b < 16)%N -> digit a = digit b -> a = b.
Proof.
  intros Ha Hb E.
  assert (C : forall x y, x < 16 -> y < 16 -> nth x (list_ascii_of_string "0123456789abcdef") " "%char = nth y (list_ascii_of_string "0123456789abcdef") " "%char -> x = y).
  { intros x y Hx Hy. do 16 (destruct x as [|x]; [do 16 (destruct y as [|y]; [first [reflexivity|discriminate]|]); lia|]). lia. }
  apply N2Nat.inj. apply C; [lia|lia|exact E].
Qed.
Lemma digit_blank a : (a < 16)%N -> digit a <> " "%char /\ digit a <> "]"%char /\ digit a <> "010"%char.
Proof.
  intros Ha.
  assert (C : forall x, x < 16 -> let c := nth x (list_ascii_of_string "0123456789abcdef") " "%char in c <> " "%char /\ c <> "]"%char /\ c <> "010"%char).
  { intros x Hx. do 16 (destruct x as [|x]; [repeat split; discriminate|]). lia. }
  apply C. lia.
Qed.
Lemma mod16 v : (v mod 16 < 16)%N.
Proof. apply N.mod_lt. discriminate. Qed.
Lemma numeral_char_inj w v v' k : numeral_char w v k = numeral_char w v' k ->
  ((v / 16 ^ N.of_nat (w - 1 - k)) mod 16 = (v' / 16 ^ N.of_nat (w - 1 - k)) mod 16)%N.
Proof.
  unfold numeral_char. set (d := (v / _)%N). set (d' := (v' / _)%N).
  destruct (N.eqb_spec d 0) as [->|E1], (N.eqb_spec d' 0) as [->|E2], (k <? w - 1); cbn [andb]; intros H; auto;
    try (now apply digit_inj in H; [|apply mod16|apply mod16]).
  - symmetry in H. now apply digit_blank in H; [|apply mod16].
  - now apply digit_blank in H; [|apply mod16].
Qed.
Lemma digits_inj w : forall v v', (v < 16 ^ N.of_nat w)%N -> (v' < 16 ^ N.of_nat w)%N ->
  (forall k, k < w -> ((v / 16 ^ N.of_nat k) mod 16 = (v' / 16 ^ N.of_nat k) mod 16)%N) -> v = v'.
Proof.
  induction w as [|w IH]; intros v v' Hv Hv' H.
  - cbn in *. lia.
  - rewrite pow16 in *. rewrite (N.div_mod v 16), (N.div_mod v' 16) by discriminate. f_equal.
    + f_equal. apply IH; [apply N.div_lt_upper_bound; [discriminate|exact Hv]|apply N.div_lt_upper_bound; [discriminate|exact Hv']|].
      intros k Hk. specialize (H (S k) ltac:(lia)). rewrite pow16 in H.
      rewrite <- !N.div_div in H by (try discriminate; pose proof (pow16_pos k); lia). exact H.
    + specialize (H 0 ltac:(lia)). change (16 ^ N.of_nat 0)%N with 1%N in H. rewrite !N.div_1_r in H. exact H.
Qed.
Lemma numeral_inj w v v' : (v < 16 ^ N.of_nat w)%N -> (v' < 16 ^ N.of_nat w)%N -> numeral w v = numeral w v' -> v = v'.
Proof.
  intros Hv Hv' E. apply (digits_inj w); auto. intros k Hk.
  assert (X : numeral_char w v (w - 1 - k) = numeral_char w v' (w - 1 - k)).
  { assert (Y : nth_error (numeral w v) (w - 1 - k) = nth_error (numeral w v') (w - 1 - k)) by now rewrite E.
    unfold numeral in Y. rewrite !nth_error_map in Y.
    rewrite (nth_error_nth' (seq 0 w) 0) in Y by (rewrite seq_length; lia). rewrite seq_nth in Y by lia. cbn in Y. congruence. }
  apply numeral_char_inj in X. now replace (w - 1 - (w - 1 - k)) with k in X by lia.
Qed.
Lemma numeral_len w v : List.length (numeral w v) = w.
Proof. unfold numeral. now rewrite map_length, seq_length. Qed.
(** no numeral contains a bracket or a newline *)
Lemma numeral_chars w v c : In c (numeral w v) -> c <> "]"%char /\ c <> "010"%char.
Proof.
  unfold numeral. intros H. apply in_map_iff in H. destruct H as (k & <- & _). unfold numeral_char.
  destruct (_ && _); [split; discriminate|]. now apply digit_blank, mod16.
Qed.
Lemma app_same_len {X} (a a' b b' : list X) : List.length a = List.length a' -> a ++ b = a' ++ b' -> a = a' /\ b = b'.
Proof.
  revert a'. induction a as [|x a IH]; intros [|x' a'] L E; try discriminate; [auto|].
  cbn in *. injection E as -> E. destruct (IH a') as (-> & ->); auto.
Qed.
(** the elements of a line, closed by a bracket *)
Lemma separated_inj w (Hw : 1 <= w) l : forall l' r r', (forall x, In x l -> exists v, x = numeral w v) -> (forall x, In x l' -> exists v, x = numeral w v) ->
  separated l ++ "]"%char :: r = separated l' ++ "]"%char :: r' -> l = l' /\ r = r'.
Proof.
  assert (nb : forall v t s, "]"%char :: t = numeral w v ++ s -> False).
  { intros v t s E. destruct (numeral w v) as [|c q] eqn:En; [apply (f_equal (@List.length _)) in En; rewrite numeral_len in En; cbn in En; lia|].
    injection E as Ec _. apply (proj1 (numeral_chars w v c ltac:(rewrite En; left; reflexivity))). now symmetry. }
  induction l as [|x l IH]; intros l' r r' H H' E.
  - destruct l' as [|x' l']; [cbn in E; split; congruence|]. exfalso. destruct (H' x') as (v & ->); [now left|].
    cbn [separated app] in E. destruct l'; [apply (nb v _ _ E)|]. rewrite <- app_assoc in E. apply (nb v _ _ E).
  - destruct (H x) as (v & ->); [now left|]. destruct l' as [|x' l'].
    { exfalso. cbn [separated app] in E. symmetry in E. destruct l; [apply (nb v _ _ E)|]. rewrite <- app_assoc in E. apply (nb v _ _ E). }
    destruct (H' x') as (v' & ->); [now left|].
    assert (U : forall v l r, separated (numeral w v :: l) ++ "]"%char :: r = numeral w v ++ match l with [] => "]"%char :: r | _ => " "%char :: separated l ++ "]"%char :: r end).
    { intros u q s. destruct q; cbn [separated]; [reflexivity|]. now rewrite <- app_assoc. }
    rewrite !U in E. apply app_same_len in E; [|now rewrite !numeral_len]. destruct E as (-> & E).
    destruct l as [|y l], l' as [|y' l']; try discriminate; [split; congruence|].
    injection E as E. destruct (IH (y' :: l') r r') as (-> & ->); auto.
    + intros z Hz. apply H. now right.
    + intros z Hz. apply H'. now right.
Qed.
Lemma map_seq_inj {X} n n' (g g' : nat -> X) : map g (seq 0 n) = map g' (seq 0 n') -> n = n' /\ forall j, j < n -> g j = g' j.
Proof.
  intros E. assert (n = n') as <- by (apply (f_equal (@List.length _)) in E; rewrite !map_length, !seq_length in E; exact E).
  split; [reflexivity|]. intros j Hj. assert (Y : nth_error (map g (seq 0 n)) j = nth_error (map g' (seq 0 n)) j) by now rewrite E.
  rewrite !nth_error_map, (nth_error_nth' (seq 0 n) 0) in Y by (rewrite seq_length; lia). rewrite seq_nth in Y by lia. cbn in Y. congruence.
Qed.
Lemma page_inj w m : 1 <= w -> forall m' n n' F F',
  (forall i j, i < m -> j < n -> (F i j < 16 ^ N.of_nat w)%N) -> (forall i j, i < m' -> j < n' -> (F' i j < 16 ^ N.of_nat w)%N) ->
  page w m n F = page w m' n' F' -> m = m' /\ (0 < m -> n = n') /\ (forall i j, i < m -> j < n -> F i j = F' i j).
Proof.
  intros Hw. induction m as [|m IH]; intros [|m'] n n' F F' H H' E.
  - split; [reflexivity|]. split; [lia|]. intros; lia.
  - discriminate.
  - discriminate.
  - unfold page in E. cbn [seq map List.concat] in E. unfold line at 1 3 in E. cbn [app] in E. injection E as E.
    rewrite <- !app_assoc in E. cbn [app] in E. apply (separated_inj w Hw) in E.
    + destruct E as (E1 & E2). apply map_seq_inj in E1. destruct E1 as (<- & E1). injection E2 as E2.
      rewrite <- !seq_shift, !map_map in E2.
      destruct (IH m' n n (fun i => F (S i)) (fun i => F' (S i))) as (-> & _ & E3).
      * intros i j Hi Hj. apply H; lia.
      * intros i j Hi Hj. apply H'; lia.
      * exact E2.
      * split; [reflexivity|]. split; [reflexivity|]. intros [|i] j Hi Hj; [|apply E3; lia].
        apply (numeral_inj w); [apply H; lia|apply H'; lia|]. now apply E1.
    + intros x Hx. apply in_map_iff in Hx. destruct Hx as (j & <- & _). now eexists.
    + intros x Hx. apply in_map_iff in Hx. destruct Hx as (j & <- & _). now eexists.
Qed.
