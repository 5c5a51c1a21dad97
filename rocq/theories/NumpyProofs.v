(** Lemmas about the .npy reader and writer. *)
Require Import String Ascii ZArith NArith Bool List Lia.
Require Import Verif.Base Verif.NumpyModel Verif.NumpySpec.
Import ListNotations.
Local Open Scope list_scope.

(* ---------- bytes and numerals ---------- *)

Lemma nat_ascii_lt c : nat_of_ascii c < 256.
Proof. apply nat_ascii_bounded. Qed.

Lemma N_of_ascii_nat c : N_of_ascii c = N.of_nat (nat_of_ascii c).
Proof. unfold nat_of_ascii. now rewrite N2Nat.id. Qed.

Lemma digit_props n : (n < 10)%N ->
  is_digit (digit n) = true /\ digit_value (digit n) = Z.of_N n
  /\ 48 <= nat_of_ascii (digit n) <= 57.
Proof.
  intros H. unfold is_digit, digit_value, digit, nat_of_ascii.
  rewrite N_ascii_embedding by lia. repeat split; try lia.
  apply andb_true_intro. split; apply N.leb_le; lia.
Qed.

Definition nonzero_bytes (l : list byte) := Forall (fun c => c <> zero) l.

Lemma is_digit_spec c : is_digit c = true <-> 48 <= nat_of_ascii c <= 57.
Proof.
  unfold is_digit. rewrite andb_true_iff, !N.leb_le. rewrite N_of_ascii_nat. lia.
Qed.

Lemma digit_value_spec c : digit_value c = (Z.of_nat (nat_of_ascii c) - 48)%Z.
Proof. unfold digit_value. rewrite N_of_ascii_nat. lia. Qed.

Definition all_digits (l : list byte) := Forall (fun c => 48 <= nat_of_ascii c <= 57) l.

Lemma numeral_value_acc l a :
  fold_left (fun v c => (10 * v + (Z.of_nat (nat_of_ascii c) - 48))%Z) l a
  = (a * 10 ^ Z.of_nat (length l) + numeral_value l)%Z.
Proof.
  unfold numeral_value. revert a. induction l as [|c l IH]; intros a; cbn [fold_left length].
  - change (Z.of_nat 0) with 0%Z. rewrite Z.pow_0_r. lia.
  - rewrite IH. rewrite (IH (10 * 0 + (Z.of_nat (nat_of_ascii c) - 48))%Z).
    rewrite Nat2Z.inj_succ, Z.pow_succ_r by lia. ring.
Qed.

Lemma numeral_value_cons c l :
  numeral_value (c :: l)
  = ((Z.of_nat (nat_of_ascii c) - 48) * 10 ^ Z.of_nat (length l) + numeral_value l)%Z.
Proof.
  unfold numeral_value at 1. cbn [fold_left].
  rewrite numeral_value_acc. ring.
Qed.

Lemma numeral_value_nonneg l : all_digits l -> (0 <= numeral_value l)%Z.
Proof.
  induction 1 as [|c l Hc Hl IH]; [now compute|].
  rewrite numeral_value_cons.
  assert (0 < 10 ^ Z.of_nat (length l))%Z by (apply Z.pow_pos_nonneg; lia). nia.
Qed.

(** [take_digits] reads exactly a numeral followed by a non-digit. *)
Lemma take_digits_app l r a :
  all_digits l ->
  match r with [] => True | c :: _ => is_digit c = false end ->
  take_digits (l ++ r) a
  = ((a * 10 ^ Z.of_nat (length l) + numeral_value l)%Z, length l).
Proof.
  intros Hl Hr. revert a. induction Hl as [|c l Hc Hl IH]; intros a.
  - cbn [app length]. change (Z.of_nat 0) with 0%Z.
    replace (a * 10 ^ 0 + numeral_value [])%Z with a by (unfold numeral_value; cbn; lia).
    destruct r as [|c r]; cbn; [easy|]. now rewrite Hr.
  - cbn [app take_digits]. rewrite (proj2 (is_digit_spec c) Hc). rewrite IH.
    cbn [length]. rewrite numeral_value_cons, digit_value_spec, Nat2Z.inj_succ, Z.pow_succ_r by lia.
    f_equal. ring.
Qed.

Lemma digit_not_space c : 48 <= nat_of_ascii c <= 57 -> is_space c = false.
Proof.
  intros H. unfold is_space. rewrite N_of_ascii_nat.
  apply orb_false_iff. split; [apply N.eqb_neq; lia|].
  apply andb_false_iff. right. apply N.leb_gt. lia.
Qed.

Lemma digit_not_sign c : 48 <= nat_of_ascii c <= 57 ->
  Ascii.eqb c "-" = false /\ Ascii.eqb c "+" = false.
Proof.
  intros H. split; apply Ascii.eqb_neq; intros ->; cbn in H; lia.
Qed.

Lemma stoi_numeral l n r :
  is_numeral l n -> (n < 2 ^ 31)%Z ->
  match r with [] => True | c :: _ => is_digit c = false end ->
  stoi (l ++ r) = SVal n (length l).
Proof.
  intros (Hne & Hd & Hv) Hn Hr. destruct l as [|c l]; [easy|].
  inversion Hd as [|? ? Hc Hl]; subst.
  unfold stoi. cbn [app skip_spaces]. rewrite (digit_not_space c Hc).
  destruct (digit_not_sign c Hc) as [-> ->].
  change (c :: l ++ r) with ((c :: l) ++ r).
  rewrite take_digits_app by assumption.
  cbn [length Nat.eqb]. rewrite Z.mul_0_l, Z.add_0_l.
  pose proof (numeral_value_nonneg _ Hd).
  replace ((- 2 ^ 31 <=? numeral_value (c :: l))%Z) with true by (symmetry; apply Z.leb_le; lia).
  replace ((numeral_value (c :: l) <? 2 ^ 31)%Z) with true by (symmetry; apply Z.ltb_lt; lia).
  reflexivity.
Qed.

(** Texts on which stoi throws std::invalid_argument: blanks, then nothing or a
    character that starts no number. *)
Inductive no_number : list byte -> Prop :=
| nn_nil : no_number []
| nn_space c l : is_space c = true -> no_number l -> no_number (c :: l)
| nn_other c l : is_space c = false -> is_digit c = false -> c <> "-"%char -> c <> "+"%char ->
    no_number (c :: l).

Lemma stoi_no_number l : no_number l -> stoi l = SInvalid.
Proof.
  intros H. unfold stoi.
  assert (Hs : exists k r, skip_spaces l = (k, r) /\
            (r = [] \/ exists c r', r = c :: r' /\ is_digit c = false
                                    /\ c <> "-"%char /\ c <> "+"%char)).
  { induction H as [|c l Hc Hl IH | c l Hs Hd H1 H2].
    - exists 0, []. cbn. auto.
    - destruct IH as (k & r & E & D). cbn [skip_spaces]. rewrite Hc, E. eauto.
    - cbn [skip_spaces]. rewrite Hs. exists 0, (c :: l). split; [easy|]. right. eauto 10. }
  destruct Hs as (k & r & -> & [-> | (c & r' & -> & Hd & H1 & H2)]); [reflexivity|].
  apply Ascii.eqb_neq in H1, H2. rewrite H1, H2. cbn [take_digits]. now rewrite Hd.
Qed.

Lemma no_number_firstn k l : no_number l -> no_number (firstn k l).
Proof.
  intros H. revert k. induction H; intros [|k]; cbn; try apply nn_nil;
    [apply nn_space; auto | apply nn_other; auto].
Qed.

Lemma no_number_spaces n l : no_number l -> no_number (repeat " "%char n ++ l).
Proof.
  intros H. induction n; [easy|]. cbn. constructor; [reflexivity|easy].
Qed.

(* ---------- the shape loop ---------- *)

(** Numerals with two separator characters after each, then a tail. *)
Fixpoint shape_items (items : list (list byte * byte * byte)) : list byte :=
  match items with
  | [] => []
  | (l, a, b) :: r => l ++ [a; b] ++ shape_items r
  end.

Lemma parse_shape_items items ns tail fuel :
  Forall2 (fun it n => is_numeral (fst (fst it)) n /\ (n < 2 ^ 31)%Z
                       /\ is_digit (snd (fst it)) = false) items ns ->
  no_number tail ->
  length items <= fuel ->
  parse_shape fuel (shape_items items ++ tail) = Ok ns.
Proof.
  intros H Ht. revert fuel. induction H as [|[[l a] b] n items ns (Hn & Hlt & Hsep) H IH]; intros fuel Hf.
  - cbn. destruct fuel; [easy|]. cbn. now rewrite (stoi_no_number _ Ht).
  - destruct fuel as [|fuel]; [cbn in Hf; lia|]. cbn [shape_items parse_shape fst snd] in *.
    rewrite <- !app_assoc. rewrite (stoi_numeral l n); [|easy|easy|easy].
    unfold substr_from.
    replace (Nat.leb (length l + 2) (length (l ++ [a; b] ++ shape_items items ++ tail))) with true
      by (symmetry; apply Nat.leb_le; rewrite !app_length; cbn; lia).
    cbn [bind].
    replace (skipn (length l + 2) (l ++ [a; b] ++ shape_items items ++ tail))
      with (shape_items items ++ tail).
    2:{ rewrite skipn_app. rewrite skipn_all2 by lia.
        replace (length l + 2 - length l) with 2 by lia. reflexivity. }
    rewrite IH by (cbn in Hf; lia). cbn [bind].
    unfold wrap64. rewrite Z.mod_small; [easy|].
    destruct Hn as (_ & Hd & <-). pose proof (numeral_value_nonneg l Hd).
    change (2^31)%Z with 2147483648%Z in Hlt. change (2^64)%Z with 18446744073709551616%Z. lia.
Qed.

Lemma shape_items_length items : length items <= length (shape_items items).
Proof.
  induction items as [|[[l a] b] items IH]; cbn; [lia|]. rewrite app_length. cbn. lia.
Qed.

(* ---------- decimal printing ---------- *)

Lemma dec_loop_spec fuel n acc :
  (N.to_nat n < 2 ^ fuel)%nat ->
  exists l, dec_loop fuel n acc = l ++ acc /\ l <> [] /\ all_digits l
            /\ numeral_value l = Z.of_N n.
Proof.
  revert n acc. induction fuel as [|fuel IH]; intros n acc Hn.
  - cbn in Hn. assert (n = 0%N) as -> by lia. cbn.
    exists ["0"%char]. repeat split; try easy. repeat constructor; cbn; lia.
  - cbn [dec_loop].
    assert (Hm : (n mod 10 < 10)%N) by (apply N.mod_lt; lia).
    destruct (digit_props _ Hm) as (D1 & D2 & D3).
    destruct (N.eqb_spec (n / 10) 0) as [E|E].
    + exists [digit (n mod 10)]. repeat split; try easy.
      * constructor; [exact D3|constructor].
      * rewrite numeral_value_cons. cbn [length]. rewrite <- digit_value_spec, D2.
        unfold numeral_value; cbn. pose proof (N.div_mod n 10). lia.
    + destruct (IH (n / 10)%N (digit (n mod 10) :: acc)) as (l & -> & Hne & Hd & Hv).
      { assert (N.to_nat (n / 10) <= N.to_nat n / 2)%nat.
        { rewrite N2Nat.inj_div. apply Nat.div_le_compat_l. cbn. lia. }
        assert (N.to_nat n / 2 < 2 ^ fuel)%nat; [|lia].
        apply Nat.div_lt_upper_bound; [lia|]. cbn in Hn. lia. }
      exists (l ++ [digit (n mod 10)]). rewrite <- app_assoc. repeat split; try easy.
      * now destruct l.
      * apply Forall_app. split; [easy|]. constructor; [exact D3|constructor].
      * unfold numeral_value. rewrite fold_left_app. cbn [fold_left].
        fold (numeral_value l). rewrite Hv, <- digit_value_spec, D2.
        pose proof (N.div_mod n 10). lia.
Qed.

Lemma size_nat_bound n : (N.to_nat n < 2 ^ N.size_nat n)%nat.
Proof.
  destruct n as [|p]; [cbn; lia|]. cbn [N.size_nat N.to_nat].
  induction p as [p IH|p IH|]; cbn [Pos.size_nat]; [| |cbn; lia].
  - rewrite Pos2Nat.inj_xI. cbn [Nat.pow]. lia.
  - rewrite Pos2Nat.inj_xO. cbn [Nat.pow]. lia.
Qed.

Lemma dec_numeral z : (0 <= z)%Z -> is_numeral (dec z) z.
Proof.
  intros Hz. unfold dec.
  destruct (dec_loop_spec (N.size_nat (Z.to_N z)) (Z.to_N z) [] (size_nat_bound _))
    as (l & -> & Hne & Hd & Hv).
  rewrite app_nil_r. repeat split; try easy. rewrite Hv. lia.
Qed.

Lemma digit_nonzero c : 48 <= nat_of_ascii c <= 57 -> c <> zero.
Proof. intros H ->. cbn in H. lia. Qed.

Lemma digits_nonzero l : all_digits l -> nonzero_bytes l.
Proof. induction 1; constructor; auto using digit_nonzero. Qed.

Lemma digits_no_char c l : all_digits l -> is_digit c = false -> ~ In c l.
Proof.
  intros H Hc Hin. apply (proj1 (Forall_forall _ _) H) in Hin.
  apply is_digit_spec in Hin. congruence.
Qed.

(* ---------- string operations ---------- *)

Lemma cstr_nonzero l r : nonzero_bytes l -> cstr (l ++ r) = l ++ cstr r.
Proof.
  induction 1 as [|c l Hc Hl IH]; [easy|]. cbn.
  rewrite (proj2 (Ascii.eqb_neq c zero) Hc). now rewrite IH.
Qed.

Lemma cstr_nonzero' l : nonzero_bytes l -> cstr l = l.
Proof. intros H. rewrite <- (app_nil_r l) at 1. rewrite cstr_nonzero by easy. apply app_nil_r. Qed.

Lemma cstr_zeros n : cstr (repeat zero n) = [].
Proof. now destruct n. Qed.

Lemma find_last_of_none c l : ~ In c l -> find_last_of c l = None.
Proof.
  induction l as [|x l IH]; [easy|]. cbn. intros H. rewrite IH by tauto.
  destruct (Ascii.eqb_spec x c); [subst; tauto|easy].
Qed.

Lemma find_last_of_app c a b :
  ~ In c b -> find_last_of c (a ++ c :: b) = Some (length a).
Proof.
  intros H. induction a as [|x a IH]; cbn.
  - rewrite find_last_of_none by easy. now rewrite Ascii.eqb_refl.
  - now rewrite IH.
Qed.

Lemma firstn_exact {A} (a b : list A) : firstn (length a) (a ++ b) = a.
Proof. induction a; cbn; [easy|]. now f_equal. Qed.

Lemma skipn_exact {A} (a b : list A) : skipn (length a) (a ++ b) = b.
Proof. induction a; cbn; [easy|]. easy. Qed.

(** The shape section of a header: everything up to the parenthesis, the items
    (the last of which may have swallowed the closing parenthesis), a tail. *)
Lemma parse_header_shape_gen pre body items ns tail close :
  body ++ close = shape_items items ++ tail ->
  Forall2 (fun it n => is_numeral (fst (fst it)) n /\ (n < 2 ^ 31)%Z
                       /\ is_digit (snd (fst it)) = false) items ns ->
  no_number tail ->
  ~ In "("%char (body ++ close) ->
  (exists c1 c2, close = c1 ++ ")"%char :: c2 /\ ~ In ")"%char c2
     /\ length (shape_items items) <= length pre + 1 + length (body ++ c1)) ->
  parse_header_shape (pre ++ "("%char :: body ++ close) = Ok ns.
Proof.
  intros E HF HT Hop (c1 & c2 & Ec & Hcl & Hlen). unfold parse_header_shape.
  rewrite find_last_of_app by easy.
  replace (find_last_of ")"%char (pre ++ "("%char :: body ++ close))
    with (Some (length pre + 1 + length (body ++ c1))).
  2:{ rewrite Ec. symmetry.
      replace (pre ++ "("%char :: body ++ c1 ++ ")"%char :: c2)
        with ((pre ++ "("%char :: body ++ c1) ++ ")"%char :: c2)
        by (rewrite <- !app_assoc; cbn; now rewrite <- app_assoc).
      rewrite find_last_of_app by easy. f_equal. rewrite !app_length. cbn.
      rewrite app_length. lia. }
  unfold substr.
  replace (Nat.leb (length pre + 1) (length (pre ++ "("%char :: body ++ close))) with true
    by (symmetry; apply Nat.leb_le; rewrite app_length; cbn; lia).
  cbn [bind].
  replace (skipn (length pre + 1) (pre ++ "("%char :: body ++ close)) with (body ++ close).
  2:{ replace (length pre + 1) with (length (pre ++ ["("%char])) by (rewrite app_length; cbn; lia).
      replace (pre ++ "("%char :: body ++ close) with ((pre ++ ["("%char]) ++ (body ++ close))
        by (rewrite <- app_assoc; reflexivity).
      now rewrite skipn_exact. }
  rewrite E. rewrite firstn_app. rewrite firstn_all2 by lia.
  apply parse_shape_items; auto using no_number_firstn.
  rewrite app_length. pose proof (shape_items_length items). lia.
Qed.

(* ---------- reading a stream ---------- *)

Lemma sread_app n l r :
  length l = n -> sread n (mk_stream (l ++ r) true) = (l, mk_stream r true).
Proof.
  intros <-. unfold sread. cbn [st_good st_rest].
  rewrite firstn_exact, skipn_exact.
  now rewrite (proj2 (Nat.leb_le _ _)) by (rewrite app_length; lia).
Qed.

Lemma le16_decode n : (N.of_nat n < 65536)%N ->
  N.to_nat (N_of_ascii (nth 0 (le16 n) zero) + 256 * N_of_ascii (nth 1 (le16 n) zero))%N = n.
Proof.
  intros H. unfold le16. cbn [nth].
  rewrite (N.mod_small (N.of_nat n) 65536) by assumption.
  rewrite !N_ascii_embedding.
  - pose proof (N.div_mod (N.of_nat n) 256). lia.
  - apply N.div_lt_upper_bound; lia.
  - apply N.mod_lt. lia.
Qed.

Lemma chunk_length k n l : length (chunk k n l) = n.
Proof. revert l. induction n; intros; cbn; auto. Qed.


Lemma skipn_skipn_add {A} (a b : nat) (l : list A) : skipn a (skipn b l) = skipn (b + a) l.
Proof.
  revert l. induction b as [|b IH]; intros l; [easy|]. destruct l; cbn; [apply skipn_nil|apply IH].
Qed.

Lemma chunk_nth k n l i :
  i < n -> nth i (chunk k n l) [] = element k l i.
Proof.
  revert l i. induction n as [|n IH]; intros l i Hi; [lia|].
  destruct i as [|i]; [easy|]. cbn [chunk nth]. rewrite IH by lia.
  unfold element. rewrite skipn_skipn_add. reflexivity.
Qed.

Lemma chunk_concat k data :
  Forall (fun e => length e = k) data -> chunk k (length data) (concat data) = data.
Proof.
  induction 1 as [|e data He H IH]; [easy|]. cbn [length chunk concat].
  rewrite <- He, firstn_exact, skipn_exact, He. now f_equal.
Qed.

Lemma concat_length_uniform k (data : list (list ascii)) :
  Forall (fun e => length e = k) data -> length (concat data) = length data * k.
Proof.
  induction 1 as [|e data He H IH]; [easy|]. cbn. rewrite app_length, IH. lia.
Qed.

Lemma read_npy_ok d jk m h db rest t shape n e :
  length m = 8 ->
  (signed_char (nth 6 m (jk_version jk)) <= 1)%Z ->
  (N.of_nat (length h) < 65536)%N ->
  nonzero_bytes h ->
  parse_dtype d h = Ok e ->
  char_at h 34 = Ok t ->
  parse_header_shape h = Ok shape ->
  in_count shape = Z.of_nat n -> 0 < n ->
  length db = n * dsize d ->
  read_npy false d jk (mk_stream (m ++ le16 (length h) ++ h ++ db ++ rest) true)
  = Ok (mk_npin (chunk (dsize d) n db) shape (Ascii.eqb t "T"), mk_stream rest true).
Proof.
  intros Hm Hv Hh Hnz Hd Ht Hs Hc Hn Hdb. unfold read_npy.
  rewrite (sread_app 8 m) by easy.
  replace (signed_char (nth 6 m (jk_version jk)) >? 1)%Z with false
    by (symmetry; rewrite Z.gtb_ltb; apply Z.ltb_ge; lia).
  rewrite Hm. cbn [Nat.eqb].
  rewrite (sread_app 2 (le16 (length h))) by easy.
  replace (nth 0 (le16 (length h)) (jk_len0 jk)) with (nth 0 (le16 (length h)) zero) by reflexivity.
  replace (nth 1 (le16 (length h)) (jk_len1 jk)) with (nth 1 (le16 (length h)) zero) by reflexivity.
  cbv zeta. rewrite le16_decode by easy.
  rewrite (sread_app (length h) h) by easy.
  rewrite Nat.sub_diag. cbn [repeat]. rewrite app_nil_r, cstr_nonzero' by easy.
  rewrite Hd. cbn [bind]. rewrite Ht. cbn [bind]. rewrite Hs. cbn [bind].
  rewrite Hc. replace (Z.of_nat n <? 0)%Z with false by (symmetry; apply Z.ltb_ge; lia).
  replace (Z.of_nat n =? 0)%Z with false by (symmetry; apply Z.eqb_neq; lia).
  rewrite Nat2Z.id. rewrite (sread_app (n * dsize d) db) by easy.
  rewrite Hdb, Nat.sub_diag. cbn [repeat]. rewrite app_nil_r.
  unfold swap_endianess. now destruct (Bool.eqb e false).
Qed.

(* ---------- element counts ---------- *)

Lemma product_pos l : Forall (fun n => 1 <= n)%Z l -> (1 <= product l)%Z.
Proof. induction 1; cbn; [lia|]. fold (product l). nia. Qed.

Lemma wrap32_small z : (0 <= z < 2 ^ 31)%Z -> wrap32 z = z.
Proof.
  intros H. unfold wrap32. change (2^32)%Z with 4294967296%Z.
  change (2^31)%Z with 2147483648%Z in *. rewrite Z.mod_small; lia.
Qed.

Lemma wrap64_small z : (0 <= z < 2 ^ 31)%Z -> wrap64 z = z.
Proof.
  intros H. unfold wrap64. change (2^64)%Z with 18446744073709551616%Z.
  change (2^31)%Z with 2147483648%Z in *. rewrite Z.mod_small; lia.
Qed.

Lemma count_fold l a :
  (1 <= a)%Z -> Forall (fun n => 1 <= n)%Z l -> (a * product l < 2 ^ 31)%Z ->
  fold_left (fun n c => wrap32 (wrap64 (wrap64 n * c))) l a = (a * product l)%Z.
Proof.
  intros Ha H. revert a Ha. induction H as [|x l Hx H IH]; intros a Ha Hp.
  - cbn. lia.
  - pose proof (product_pos l H). unfold product in Hp. cbn [fold_right] in Hp. fold (product l) in Hp.
    assert (a < 2 ^ 31)%Z by nia.
    assert (a * x < 2 ^ 31)%Z by nia.
    cbn [fold_left]. rewrite (wrap64_small a) by lia.
    rewrite (wrap64_small (a * x)) by nia. rewrite (wrap32_small (a * x)) by nia.
    rewrite IH by nia. unfold product. cbn [fold_right]. fold (product l). ring.
Qed.

Lemma in_count_product l :
  Forall (fun n => 1 <= n)%Z l -> (product l < 2 ^ 31)%Z -> in_count l = product l.
Proof. intros H1 H2. unfold in_count. rewrite count_fold; try lia; auto. Qed.

Lemma conv_cols_product l :
  Forall (fun n => 1 <= n)%Z l -> (product l < 2 ^ 31)%Z -> conv_cols l = product l.
Proof. intros H1 H2. unfold conv_cols. rewrite count_fold; try lia; auto. Qed.

Lemma out_count_product l :
  Forall (fun n => 1 <= n)%Z l -> (product l < 2 ^ 31)%Z -> out_count l = product l.
Proof.
  intros H Hp. unfold out_count.
  assert (G : forall a, (1 <= a)%Z -> (a * product l < 2 ^ 31)%Z ->
              fold_left (fun n d => wrap64 (n * d)) l a = (a * product l)%Z).
  { clear Hp. induction H as [|x l Hx H IH]; intros a Ha Hp.
    - cbn. lia.
    - pose proof (product_pos l H). unfold product in Hp. cbn [fold_right] in Hp. fold (product l) in Hp.
      cbn [fold_left]. rewrite (wrap64_small (a * x)) by nia. rewrite IH by nia.
      unfold product. cbn [fold_right]. fold (product l). ring. }
  rewrite G; lia.
Qed.

(* ---------- conversion to a matrix ---------- *)

Lemma flat_map_grid_length {A} (g : nat -> nat -> A) n m s :
  length (flat_map (fun a => map (g a) (seq 0 m)) (seq s n)) = n * m.
Proof.
  revert s. induction n as [|n IH]; intros s; [easy|]. cbn.
  rewrite app_length, map_length, seq_length, IH. lia.
Qed.

Lemma nth_flat_map_grid {A} (g : nat -> nat -> A) n m a b (d : A) s :
  a < n -> b < m ->
  nth (a * m + b) (flat_map (fun a => map (g a) (seq 0 m)) (seq s n)) d = g (s + a) b.
Proof.
  revert a s. induction n as [|n IH]; intros a s Ha Hb; [lia|].
  cbn [seq flat_map]. destruct a as [|a].
  - cbn [Nat.mul Nat.add]. rewrite app_nth1 by (rewrite map_length, seq_length; lia).
    rewrite (nth_indep _ d (g s 0)) by (rewrite map_length, seq_length; lia).
    rewrite map_nth, seq_nth by lia. f_equal; lia.
  - rewrite app_nth2 by (rewrite map_length, seq_length; lia).
    rewrite map_length, seq_length.
    replace (S a * m + b - m) with (a * m + b) by lia.
    rewrite IH by lia. f_equal. lia.
Qed.

Lemma dest_order_length rm rows cols : length (dest_order rm rows cols) = rows * cols.
Proof. destruct rm; cbn; rewrite flat_map_grid_length; lia. Qed.

Lemma dest_order_in rm rows cols i j :
  In (i, j) (dest_order rm rows cols) <-> i < cols /\ j < rows.
Proof.
  destruct rm; cbn [dest_order]; rewrite in_flat_map; split.
  - intros (x & Hx & Hin). apply in_map_iff in Hin. destruct Hin as (y & [= -> ->] & Hy).
    apply in_seq in Hx, Hy. lia.
  - intros [Hi Hj]. exists j. split; [apply in_seq; lia|]. apply in_map_iff. exists i.
    split; [easy|apply in_seq; lia].
  - intros (x & Hx & Hin). apply in_map_iff in Hin. destruct Hin as (y & [= -> ->] & Hy).
    apply in_seq in Hx, Hy. lia.
  - intros [Hi Hj]. exists i. split; [apply in_seq; lia|]. apply in_map_iff. exists j.
    split; [easy|apply in_seq; lia].
Qed.

Lemma dest_order_nth (rm : bool) rows cols i j d :
  i < cols -> j < rows ->
  nth (if rm then j * cols + i else i * rows + j) (dest_order rm rows cols) d = (i, j).
Proof.
  intros Hi Hj. destruct rm; cbn [dest_order].
  - rewrite (nth_flat_map_grid (fun j i => (i, j))) by lia. f_equal.
  - rewrite (nth_flat_map_grid (fun i j => (i, j))) by lia. f_equal.
Qed.

Lemma src_index_bound f rows cols i j :
  i < cols -> j < rows -> src_index f rows cols i j < rows * cols.
Proof. intros. unfold src_index. destruct f; nia. Qed.

Lemma to_matrix_ok rm vec data r rest fortran :
  (1 <= r)%Z -> Forall (fun n => 1 <= n)%Z rest ->
  (r * product rest < 2 ^ 31)%Z ->
  length data = Z.to_nat (r * product rest) ->
  (vec = true -> product rest = 1%Z) ->
  exists m, to_matrix rm vec (mk_npin data (r :: rest) fortran) = Ok m
    /\ em_rows m = Z.to_nat r /\ em_cols m = Z.to_nat (product rest)
    /\ em_rowmajor m = rm
    /\ length (em_store m) = em_rows m * em_cols m
    /\ (forall j i, j < em_rows m -> i < em_cols m ->
         em_get m j i = nth (entry_index fortran (em_rows m) (em_cols m) j i) data []).
Proof.
  intros Hr Hrest Hp Hlen Hvec. pose proof (product_pos rest Hrest) as Hpp.
  unfold to_matrix. cbn [ni_shape ni_data ni_fortran].
  rewrite wrap32_small by nia. rewrite conv_cols_product by (try easy; nia).
  replace (r <? 0)%Z with false by (symmetry; apply Z.ltb_ge; lia).
  replace (product rest <? 0)%Z with false by (symmetry; apply Z.ltb_ge; lia).
  cbn [orb].
  replace (andb vec (negb (product rest =? 1)%Z)) with false.
  2:{ destruct vec; [|easy]. cbn. rewrite Hvec by easy. easy. }
  set (rows := Z.to_nat r). set (cols := Z.to_nat (product rest)).
  assert (Hrc : length data = rows * cols).
  { rewrite Hlen. unfold rows, cols. rewrite Z2Nat.inj_mul by lia. easy. }
  match goal with |- context [forallb ?f ?l] => replace (forallb f l) with true end.
  2:{ symmetry. apply forallb_forall. intros k Hk. apply in_map_iff in Hk.
      destruct Hk as ([i j] & <- & Hij). apply dest_order_in in Hij. cbn [fst snd].
      apply Nat.ltb_lt. rewrite Hrc. apply src_index_bound; tauto. }
  eexists. split; [reflexivity|]. cbn [em_rows em_cols em_rowmajor em_store].
  repeat split.
  - rewrite !map_length, dest_order_length. reflexivity.
  - intros j i Hj Hi. unfold em_get. cbn [em_rows em_cols em_rowmajor em_store].
    rewrite map_map.
    set (g := fun p : nat * nat => nth (src_index fortran rows cols (fst p) (snd p)) data []).
    transitivity (nth (if rm then j * cols + i else i * rows + j)
                      (map g (dest_order rm rows cols)) (g (0, 0))).
    { apply nth_indep. rewrite map_length, dest_order_length. destruct rm; nia. }
    rewrite map_nth, dest_order_nth by easy. unfold g. cbn [fst snd].
    unfold src_index, entry_index. reflexivity.
Qed.

(** An index beyond the data makes the conversion undefined. *)
Lemma to_matrix_overrun rm vec data r c fortran :
  (1 <= r < 2 ^ 31)%Z -> (1 <= c < 2 ^ 31)%Z ->
  (Z.of_nat (length data) < r * c)%Z ->
  to_matrix rm vec (mk_npin data [r; c] fortran) = UB.
Proof.
  intros Hr Hc Hlt. unfold to_matrix. cbn [ni_shape ni_data ni_fortran].
  rewrite wrap32_small by lia.
  rewrite conv_cols_product; [|constructor; [lia|constructor] | cbn; lia].
  replace (product [c]) with c by (cbn; lia).
  replace (r <? 0)%Z with false by (symmetry; apply Z.ltb_ge; lia).
  replace (c <? 0)%Z with false by (symmetry; apply Z.ltb_ge; lia).
  cbn [orb]. destruct (andb vec (negb (c =? 1)%Z)); [easy|].
  match goal with |- context [forallb ?f ?l] => replace (forallb f l) with false; [easy|] end.
  symmetry. apply not_true_is_false. rewrite forallb_forall. intros H.
  set (rows := Z.to_nat r) in *. set (cols := Z.to_nat c) in *.
  specialize (H (src_index fortran rows cols (cols - 1) (rows - 1))).
  rewrite Nat.ltb_lt in H.
  assert (src_index fortran rows cols (cols - 1) (rows - 1) < length data).
  { apply H. apply in_map_iff. exists (cols - 1, rows - 1). split; [easy|].
    apply dest_order_in. unfold rows, cols. lia. }
  assert (src_index fortran rows cols (cols - 1) (rows - 1) = rows * cols - 1).
  { unfold src_index. assert (rows >= 1) by (unfold rows; lia).
    assert (cols >= 1) by (unfold cols; lia). destruct fortran; nia. }
  assert (Z.of_nat (rows * cols) = (r * c)%Z) by (unfold rows, cols; rewrite Nat2Z.inj_mul, !Z2Nat.id; lia).
  lia.
Qed.

(* ---------- header texts ---------- *)

(** Common form of the writer's and numpy's headers. *)
Definition hform (o : ascii) (code : list ascii) (fortran : bool) (body close : list ascii) :=
  text "{'descr': '" ++ [o] ++ code ++ text "', 'fortran_order': "
  ++ text (if fortran then "True" else "False") ++ text ", 'shape': "
  ++ "("%char :: body ++ close.

Lemma hform_char_at o c1 c2 fortran body close :
  exists t, char_at (hform o [c1; c2] fortran body close) 34 = Ok t
            /\ Ascii.eqb t "T" = fortran.
Proof. destruct fortran; eexists; split; reflexivity. Qed.

Lemma hform_dtype d o c1 c2 fortran body close :
  parse_dtype d (hform o [c1; c2] fortran body close)
  = if list_eq_dec ascii_dec [c1; c2] (dtype_for_scalar d)
    then Ok (Ascii.eqb o ">") else Throw ERuntime.
Proof.
  unfold parse_dtype.
  replace (substr (hform o [c1; c2] fortran body close) 11 3) with (@Ok (list ascii) [o; c1; c2])
    by (destruct fortran; reflexivity).
  reflexivity.
Qed.

Lemma hform_shape o code fortran body close items ns tail c2 :
  body ++ close = shape_items items ++ tail ->
  Forall2 (fun it n => is_numeral (fst (fst it)) n /\ (n < 2 ^ 31)%Z
                       /\ is_digit (snd (fst it)) = false) items ns ->
  no_number tail ->
  ~ In "("%char (body ++ close) ->
  close = ")"%char :: c2 -> ~ In ")"%char c2 ->
  length (shape_items items) <= length body + 10 ->
  parse_header_shape (hform o code fortran body close) = Ok ns.
Proof.
  intros E HF HT Hop Ec Hc2 Hlen. unfold hform.
  match goal with |- parse_header_shape (?a ++ ?b ++ ?c ++ ?d ++ ?e ++ ?f ++ _) = _ =>
    replace (a ++ b ++ c ++ d ++ e ++ f ++ "("%char :: body ++ close)
      with ((a ++ b ++ c ++ d ++ e ++ f) ++ "("%char :: body ++ close)
      by (rewrite <- !app_assoc; reflexivity)
  end.
  apply (parse_header_shape_gen _ body items ns tail close); try assumption.
  exists [], c2. repeat split; try assumption. rewrite app_nil_r, !app_length. cbn. lia.
Qed.

Lemma nonzero_app a b : nonzero_bytes (a ++ b) <-> nonzero_bytes a /\ nonzero_bytes b.
Proof. apply Forall_app. Qed.

Lemma nonzero_dec l :
  forallb (fun c => negb (Ascii.eqb c zero)) l = true -> nonzero_bytes l.
Proof.
  intros H. apply Forall_forall. intros c Hc -> .
  rewrite forallb_forall in H. specialize (H _ Hc). discriminate.
Qed.

Lemma nonzero_repeat c n : c <> zero -> nonzero_bytes (repeat c n).
Proof. intros H. apply Forall_forall. intros x Hx. apply repeat_spec in Hx. now subst. Qed.

Lemma hform_nonzero o c1 c2 fortran body close :
  o <> zero -> nonzero_bytes [c1; c2] -> nonzero_bytes body -> nonzero_bytes close ->
  nonzero_bytes (hform o [c1; c2] fortran body close).
Proof.
  intros Ho Hc Hb Hcl. unfold hform.
  change ("("%char :: body ++ close) with (["("%char] ++ body ++ close).
  rewrite !nonzero_app.
  repeat split; try assumption; try (apply nonzero_dec; destruct fortran; reflexivity).
  now constructor.
Qed.

(** Padding. *)
Lemma pad_loop_spec fuel h :
  exists p, pad_loop fuel h = h ++ repeat " "%char p /\ p <= fuel
    /\ (16 <= fuel + (length h + 11) mod 16 \/ (length h + 11) mod 16 = 0 ->
        (length h + p + 11) mod 16 = 0).
Proof.
  revert h. induction fuel as [|fuel IH]; intros h.
  - exists 0. cbn [pad_loop repeat]. rewrite app_nil_r. split; [easy|]. split; [lia|].
    rewrite Nat.add_0_r. pose proof (Nat.mod_upper_bound (length h + 11) 16). lia.
  - cbn [pad_loop]. destruct (Nat.eqb_spec ((length h + 11) mod 16) 0) as [E|E].
    + exists 0. cbn [repeat]. rewrite app_nil_r, Nat.add_0_r. repeat split; lia.
    + destruct (IH (h ++ [" "%char])) as (p & -> & Hp & Hm).
      exists (S p). rewrite <- app_assoc. split; [reflexivity|]. split; [lia|].
      rewrite app_length in Hm. cbn [length] in Hm. intros H16.
      replace (length h + S p + 11) with (length h + 1 + p + 11) by lia.
      apply Hm.
      pose proof (Nat.mod_upper_bound (length h + 11) 16).
      destruct (Nat.eq_dec ((length h + 11) mod 16) 15) as [E15|N15].
      * right. replace (length h + 1 + 11) with (length h + 11 + 1) by lia.
        rewrite Nat.add_mod, E15 by lia. reflexivity.
      * left. replace (length h + 1 + 11) with (length h + 11 + 1) by lia.
        rewrite Nat.add_mod by lia. rewrite (Nat.mod_small 1 16) by lia.
        rewrite (Nat.mod_small (_ + 1)) by lia. lia.
Qed.

Lemma header_form big d shape fortran :
  exists p, p <= 16 /\
    header big d shape fortran
    = header_text big d shape fortran ++ repeat " "%char p ++ ["010"%char]
    /\ (10 + length (header big d shape fortran)) mod 16 = 0.
Proof.
  unfold header. destruct (pad_loop_spec 16 (header_text big d shape fortran)) as (p & -> & Hp & Hm).
  exists p. split; [easy|]. split; [now rewrite <- app_assoc|].
  rewrite !app_length, repeat_length. cbn [length].
  match goal with |- ?x mod 16 = 0 =>
    replace x with (length (header_text big d shape fortran) + p + 11) by lia end.
  apply Hm. lia.
Qed.

(** The writer's header has the common form. *)
Lemma supported_code d : supported d ->
  exists c1 c2, dtype_for_scalar d = [c1; c2] /\ nonzero_bytes [c1; c2].
Proof.
  destruct d; intros []; do 2 eexists; (split; [reflexivity|]); apply nonzero_dec; reflexivity.
Qed.

Definition dims_body (shape : list Z) : list ascii := flat_map (fun d => dec d ++ text ", ") shape.

Lemma header_hform big d shape fortran :
  exists p, p <= 16 /\
  header big d shape fortran
  = hform (if big then ">"%char else "<"%char) (dtype_for_scalar d) fortran
          (dims_body shape) (text ")}" ++ repeat " "%char p ++ ["010"%char])
  /\ (10 + length (header big d shape fortran)) mod 16 = 0.
Proof.
  destruct (header_form big d shape fortran) as (p & Hp & E & Ha).
  exists p. split; [easy|]. split; [|easy]. rewrite E. unfold header_text, hform, out_dtype, dims_body.
  rewrite <- !app_assoc. destruct big, fortran; reflexivity.
Qed.

Lemma dims_body_props shape :
  Forall (fun n => 0 <= n)%Z shape ->
  nonzero_bytes (dims_body shape) /\ ~ In "("%char (dims_body shape)
  /\ dims_body shape = shape_items (map (fun n => (dec n, ","%char, " "%char)) shape).
Proof.
  induction 1 as [|n shape Hn H (IH1 & IH2 & IH3)]; [repeat split; auto; constructor|].
  cbn [dims_body flat_map map shape_items]. fold (dims_body shape).
  pose proof (dec_numeral n Hn) as (Hne & Hd & _).
  repeat split.
  - rewrite !nonzero_app. repeat split; auto using digits_nonzero.
    apply nonzero_dec. reflexivity.
  - rewrite !in_app_iff. intros [[Hin|Hin]|Hin]; [|cbn in Hin; intuition discriminate|tauto].
    revert Hin. apply digits_no_char; easy.
  - rewrite <- app_assoc, IH3. reflexivity.
Qed.

Lemma items_numerals shape :
  Forall (fun n => 0 <= n < 2 ^ 31)%Z shape ->
  Forall2 (fun it n => is_numeral (fst (fst it)) n /\ (n < 2 ^ 31)%Z
                       /\ is_digit (snd (fst it)) = false)
          (map (fun n => (dec n, ","%char, " "%char)) shape) shape.
Proof.
  induction 1; cbn [map]; constructor; auto. cbn [fst snd]. repeat split; try apply dec_numeral; try lia.
Qed.

Lemma blanks_no c p : c <> " "%char -> c <> "010"%char ->
  ~ In c (repeat " "%char p ++ ["010"%char]).
Proof.
  intros H1 H2. rewrite in_app_iff. intros [Hin|[Hin|[]]]; [|congruence].
  apply repeat_spec in Hin. congruence.
Qed.

Lemma blanks_no_number p : no_number (repeat " "%char p ++ ["010"%char]).
Proof. apply no_number_spaces. constructor; [reflexivity|constructor]. Qed.

Lemma blanks_nonzero p : nonzero_bytes (repeat " "%char p ++ ["010"%char]).
Proof.
  apply nonzero_app. split; [apply nonzero_repeat; discriminate|apply nonzero_dec; reflexivity].
Qed.

Lemma header_parse big d shape fortran :
  supported d -> Forall (fun n => 0 <= n < 2 ^ 31)%Z shape ->
  let h := header big d shape fortran in
  nonzero_bytes h /\ parse_dtype d h = Ok big
  /\ (exists t, char_at h 34 = Ok t /\ Ascii.eqb t "T" = fortran)
  /\ parse_header_shape h = Ok shape.
Proof.
  intros Hd Hs h. unfold h. destruct (header_hform big d shape fortran) as (p & Hp & -> & _).
  assert (Hs0 : Forall (fun n => 0 <= n)%Z shape)
    by (eapply Forall_impl; [|exact Hs]; cbn; intros; lia).
  destruct (dims_body_props shape Hs0) as (B1 & B2 & B3).
  destruct (supported_code d Hd) as (c1 & c2 & Ec & Hc). rewrite Ec.
  split; [|split; [|split]].
  - apply hform_nonzero; auto.
    + destruct big; discriminate.
    + apply nonzero_app. split; [apply nonzero_dec; reflexivity|apply blanks_nonzero].
  - rewrite hform_dtype, Ec. destruct (list_eq_dec ascii_dec [c1; c2] [c1; c2]); [|easy].
    now destruct big.
  - apply hform_char_at.
  - eapply hform_shape with (c2 := text "}" ++ repeat " "%char p ++ ["010"%char])
                            (tail := text ")}" ++ repeat " "%char p ++ ["010"%char]).
    + rewrite B3. reflexivity.
    + apply items_numerals. assumption.
    + apply nn_other; (reflexivity || discriminate).
    + rewrite in_app_iff. intros [Hin|Hin]; [easy|]. rewrite in_app_iff in Hin.
      destruct Hin as [Hin|Hin]; [cbn in Hin; intuition discriminate|].
      revert Hin. apply blanks_no; discriminate.
    + reflexivity.
    + rewrite in_app_iff. intros [Hin|Hin]; [cbn in Hin; intuition discriminate|].
      revert Hin. apply blanks_no; discriminate.
    + rewrite <- B3. lia.
Qed.

(** numpy's header has the common form. *)
Lemma numpy_header_hform o code fortran ns pad :
  numpy_header o code fortran ns pad
  = hform o code fortran (tuple_text ns) (text "), }" ++ repeat " "%char pad ++ ["010"%char]).
Proof. unfold numpy_header, hform. destruct fortran; reflexivity. Qed.

Definition numerals (ns : list (list ascii)) (shape : list Z) : Prop :=
  Forall2 (fun l n => is_numeral l n /\ (n < 2 ^ 31)%Z) ns shape.

Lemma is_numeral_clean l n : is_numeral l n -> nonzero_bytes l /\ ~ In "("%char l.
Proof.
  intros (_ & Hd & _). split; [now apply digits_nonzero|]. apply digits_no_char; easy.
Qed.

Lemma tuple_tail_clean ns shape : numerals ns shape ->
  nonzero_bytes (tuple_tail ns) /\ ~ In "("%char (tuple_tail ns).
Proof.
  induction 1 as [|l n ns shape [Hn _] H (IH1 & IH2)]; [split; [constructor|easy]|].
  cbn [tuple_tail]. destruct (is_numeral_clean _ _ Hn) as [C1 C2].
  rewrite !nonzero_app, !in_app_iff. split; [|cbn; intuition discriminate].
  repeat split; auto. apply nonzero_dec; reflexivity.
Qed.

Lemma tuple_text_clean ns shape : numerals ns shape ->
  nonzero_bytes (tuple_text ns) /\ ~ In "("%char (tuple_text ns).
Proof.
  intros H. destruct H as [|l n ns shape [Hn _] H]; [split; [constructor|easy]|].
  destruct (is_numeral_clean _ _ Hn) as [C1 C2].
  destruct ns as [|l2 ns].
  - cbn [tuple_text]. rewrite nonzero_app, in_app_iff. split; [|cbn; intuition discriminate].
    split; auto. apply nonzero_dec; reflexivity.
  - change (tuple_text (l :: l2 :: ns)) with (l ++ tuple_tail (l2 :: ns)).
    destruct (tuple_tail_clean _ _ H) as [T1 T2].
    rewrite nonzero_app, in_app_iff. tauto.
Qed.

(** Items of a tuple with at least two components, given the first. *)
Fixpoint tuple_items (l : list ascii) (r : list (list ascii)) : list (list ascii * ascii * ascii) :=
  match r with
  | [] => [(l, ")"%char, ","%char)]
  | l2 :: r2 => (l, ","%char, " "%char) :: tuple_items l2 r2
  end.

Lemma tuple_items_text l r tl :
  l ++ tuple_tail r ++ text ")," ++ tl = shape_items (tuple_items l r) ++ tl.
Proof.
  revert l. induction r as [|l2 r IH]; intros l; cbn [tuple_tail tuple_items shape_items].
  - cbn [app]. rewrite <- app_assoc. reflexivity.
  - rewrite <- !app_assoc. rewrite (IH l2). rewrite <- ?app_assoc. reflexivity.
Qed.

Lemma tuple_items_length l r :
  length (shape_items (tuple_items l r)) = length (l ++ tuple_tail r) + 2.
Proof.
  pose proof (tuple_items_text l r []) as E. apply (f_equal (@length _)) in E.
  rewrite !app_length in *. cbn in *. lia.
Qed.

Lemma tuple_items_numerals l n r shape :
  is_numeral l n -> (n < 2 ^ 31)%Z -> numerals r shape ->
  Forall2 (fun it n => is_numeral (fst (fst it)) n /\ (n < 2 ^ 31)%Z
                       /\ is_digit (snd (fst it)) = false)
          (tuple_items l r) (n :: shape).
Proof.
  intros Hn Hlt H. revert l n Hn Hlt.
  induction H as [|l2 n2 r shape [Hn2 Hlt2] H IH]; intros l n Hn Hlt; cbn [tuple_items].
  - constructor; [|constructor]. cbn. repeat split; try apply Hn; lia.
  - constructor; [cbn; repeat split; try apply Hn; lia|]. now apply IH.
Qed.

Lemma numpy_header_parse d o fortran ns shape pad :
  supported d -> o <> zero -> numerals ns shape -> ns <> [] ->
  let h := numpy_header o (dtype_for_scalar d) fortran ns pad in
  nonzero_bytes h /\ (exists e, parse_dtype d h = Ok e)
  /\ (exists t, char_at h 34 = Ok t /\ Ascii.eqb t "T" = fortran)
  /\ parse_header_shape h = Ok shape.
Proof.
  intros Hd Ho Hns Hne h. unfold h. rewrite numpy_header_hform.
  destruct (tuple_text_clean _ _ Hns) as (B1 & B2).
  destruct (supported_code d Hd) as (c1 & c2 & Ec & Hc). rewrite Ec.
  assert (Hnop : ~ In "("%char (tuple_text ns ++ text "), }" ++ repeat " "%char pad ++ ["010"%char])).
  { rewrite in_app_iff. intros [Hin|Hin]; [easy|]. rewrite in_app_iff in Hin.
    destruct Hin as [Hin|Hin]; [cbn in Hin; intuition discriminate|].
    revert Hin. apply blanks_no; discriminate. }
  assert (Hncl : ~ In ")"%char (text ", }" ++ repeat " "%char pad ++ ["010"%char])).
  { rewrite in_app_iff. intros [Hin|Hin]; [cbn in Hin; intuition discriminate|].
    revert Hin. apply blanks_no; discriminate. }
  split; [|split; [|split]].
  - apply hform_nonzero; auto.
    apply nonzero_app. split; [apply nonzero_dec; reflexivity|apply blanks_nonzero].
  - rewrite hform_dtype, Ec. destruct (list_eq_dec ascii_dec [c1; c2] [c1; c2]); [|easy]. eauto.
  - apply hform_char_at.
  - destruct Hns as [|l n ns shape [Hn Hlt] Hns]; [easy|].
    destruct ns as [|l2 ns].
    + inversion Hns; subst.
      eapply hform_shape with (items := [(l, ","%char, ")"%char)])
        (c2 := text ", }" ++ repeat " "%char pad ++ ["010"%char])
        (tail := text ", }" ++ repeat " "%char pad ++ ["010"%char]); try assumption; try reflexivity.
      * cbn [tuple_text shape_items]. rewrite <- !app_assoc. reflexivity.
      * constructor; [|constructor]. cbn [fst snd]. split; [exact Hn|]. split; [exact Hlt|reflexivity].
      * apply nn_other; (reflexivity || discriminate).
      * cbn. rewrite !app_length. cbn. lia.
    + eapply hform_shape with (items := tuple_items l (l2 :: ns))
        (c2 := text ", }" ++ repeat " "%char pad ++ ["010"%char])
        (tail := text " }" ++ repeat " "%char pad ++ ["010"%char]); try assumption; try reflexivity.
      * rewrite <- tuple_items_text. change (tuple_text (l :: l2 :: ns)) with (l ++ tuple_tail (l2 :: ns)).
        rewrite <- !app_assoc. reflexivity.
      * now apply tuple_items_numerals.
      * apply nn_space; [reflexivity|]. apply nn_other; (reflexivity || discriminate).
      * rewrite tuple_items_length. change (tuple_text (l :: l2 :: ns)) with (l ++ tuple_tail (l2 :: ns)).
        lia.
Qed.

(* ---------- round trips ---------- *)

Lemma product2 a b : product [a; b] = (a * b)%Z.
Proof. unfold product; cbn; lia. Qed.


Lemma dec_loop_length fuel n acc : length (dec_loop fuel n acc) <= S fuel + length acc.
Proof.
  revert n acc. induction fuel as [|fuel IH]; intros n acc; cbn [dec_loop].
  - cbn. lia.
  - destruct (n / 10 =? 0)%N; [cbn; lia|]. etransitivity; [apply IH|]. cbn. lia.
Qed.

Lemma size_nat_le n k : (n < 2 ^ N.of_nat k)%N -> N.size_nat n <= k.
Proof.
  revert n. induction k as [|k IH]; intros n Hn.
  - cbn in Hn. assert (n = 0%N) as -> by lia. easy.
  - destruct n as [|p]; [cbn; lia|]. rewrite Nat2N.inj_succ, N.pow_succ_r' in Hn.
    cbn [N.size_nat]. destruct p as [p|p|]; cbn [Pos.size_nat]; [| |lia].
    + specialize (IH (Npos p)). cbn in IH. apply le_n_S, IH. lia.
    + specialize (IH (Npos p)). cbn in IH. apply le_n_S, IH. lia.
Qed.

Lemma dec_length z : (0 <= z < 2 ^ 31)%Z -> length (dec z) <= 32.
Proof.
  intros H. unfold dec. etransitivity; [apply dec_loop_length|]. cbn [length].
  assert (N.size_nat (Z.to_N z) <= 31); [|lia].
  apply size_nat_le. cbn. change (2^31)%Z with 2147483648%Z in H. lia.
Qed.

Lemma header_length2 big d r c fortran :
  supported d -> (0 <= r < 2 ^ 31)%Z -> (0 <= c < 2 ^ 31)%Z ->
  length (header big d [r; c] fortran) <= 200.
Proof.
  intros Hd Hr Hc. destruct (header_hform big d [r; c] fortran) as (p & Hp & -> & _).
  destruct (supported_code d Hd) as (c1 & c2 & -> & _).
  unfold hform, dims_body. cbn [flat_map]. rewrite !app_length. cbn [length app].
  rewrite !app_length, repeat_length.
  pose proof (dec_length r Hr). pose proof (dec_length c Hc).
  destruct fortran; cbn; lia.
Qed.

Lemma read_write wb d shape fortran data jk rest :
  supported d ->
  Forall (fun n => 1 <= n)%Z shape -> (product shape < 2 ^ 31)%Z ->
  length data = Z.to_nat (product shape) ->
  Forall (fun e => length e = dsize d) data ->
  (N.of_nat (length (header wb d shape fortran)) < 65536)%N ->
  exists file, write_npy wb d (mk_npout data shape fortran) = Ok file
    /\ read_npy false d jk (mk_stream (file ++ rest) true)
       = Ok (mk_npin data shape fortran, mk_stream rest true).
Proof.
  intros Hd Hs Hp Hl He Hh. pose proof (product_pos shape Hs) as Hpp.
  unfold write_npy. cbn [no_data no_shape no_fortran].
  rewrite out_count_product by assumption. rewrite <- Hl, Nat.leb_refl, firstn_all.
  eexists. split; [reflexivity|].
  assert (Hs' : Forall (fun n => 0 <= n < 2 ^ 31)%Z shape).
  { clear - Hs Hp. induction Hs as [|n l Hn H IH]; constructor;
      unfold product in Hp; cbn [fold_right] in Hp; fold (product l) in Hp;
      pose proof (product_pos l H); [nia|]. apply IH. nia. }
  destruct (header_parse wb d shape fortran Hd Hs') as (N1 & N2 & (t & T1 & T2) & N3).
  rewrite <- !app_assoc.
  erewrite (read_npy_ok d jk magic_and_version (header wb d shape fortran) (concat data) rest t shape (length data)); eauto.
  - rewrite T2, chunk_concat by assumption. reflexivity.
  - cbn. lia.
  - rewrite in_count_product by assumption. rewrite Hl. lia.
  - lia.
  - now apply concat_length_uniform.
Qed.

Lemma matrix_roundtrip wb d m rm vec jk rest :
  supported d -> valid_matrix d m -> (vec = true -> em_cols m = 1) ->
  exists file m',
    save wb d m = Ok file
    /\ load false d rm vec jk (mk_stream (file ++ rest) true) = Ok (m', mk_stream rest true)
    /\ em_rowmajor m' = rm /\ length (em_store m') = em_rows m' * em_cols m' /\ same_matrix m' m.
Proof.
  intros Hd (Hr & Hc & Hp & Hl & He) Hv.
  set (r := Z.of_nat (em_rows m)) in *. set (c := Z.of_nat (em_cols m)) in *.
  destruct (read_write wb d [r; c] (negb (em_rowmajor m)) (em_store m) jk rest) as (file & W & R); auto.
  - repeat constructor; lia.
  - rewrite product2. lia.
  - rewrite product2. unfold r, c. lia.
  - pose proof (header_length2 wb d r c (negb (em_rowmajor m)) Hd). 
    assert (length (header wb d [r; c] (negb (em_rowmajor m))) <= 200) by (apply H; nia). lia.
  - destruct (to_matrix_ok rm vec (em_store m) r [c] (negb (em_rowmajor m)))
      as (m' & T & Er & Ec & Erm & El & Eg).
    + lia.
    + repeat constructor; lia.
    + unfold product; cbn. lia.
    + unfold product; cbn. rewrite Hl. unfold r, c. lia.
    + intros ->. unfold product; cbn. unfold c. rewrite Hv by easy. easy.
    + exists file, m'. split; [exact W|]. split.
      { unfold load. rewrite R. cbn [bind]. rewrite T. reflexivity. }
      assert (Ec' : em_cols m' = em_cols m) by (rewrite Ec; unfold product, c; cbn; lia).
      assert (Er' : em_rows m' = em_rows m) by (rewrite Er; unfold r; lia).
      repeat split; auto.
      intros j i Hj Hi. rewrite Eg by assumption. unfold em_get, entry_index.
      rewrite Er', Ec'. now destruct (em_rowmajor m).
Qed.

(** Matrices with the same storage order and entries have the same storage. *)
Lemma same_matrix_eq a b :
  same_matrix a b -> em_rowmajor a = em_rowmajor b ->
  length (em_store a) = em_rows a * em_cols a ->
  length (em_store b) = em_rows b * em_cols b -> a = b.
Proof.
  intros (Hr & Hc & Hg) Hrm La Lb. destruct a as [ra ca rma sa], b as [rb cb rmb sb].
  cbn in *. subst rb cb rmb. f_equal.
  apply (nth_ext _ _ [] []); [lia|]. intros k Hk. rewrite La in Hk.
  unfold em_get in Hg. cbn in Hg.
  destruct rma.
  - assert (ca <> 0) by nia.
    specialize (Hg (k / ca) (k mod ca)).
    pose proof (Nat.div_mod k ca ltac:(lia)). 
    replace (k / ca * ca + k mod ca) with k in Hg by lia. apply Hg.
    + apply Nat.div_lt_upper_bound; lia.
    + apply Nat.mod_upper_bound; lia.
  - assert (ra <> 0) by nia.
    specialize (Hg (k mod ra) (k / ra)).
    pose proof (Nat.div_mod k ra ltac:(lia)).
    replace (k / ra * ra + k mod ra) with k in Hg by lia. apply Hg.
    + apply Nat.mod_upper_bound; lia.
    + apply Nat.div_lt_upper_bound; lia.
Qed.

Lemma matrix_roundtrip_same d m vec jk rest :
  supported d -> valid_matrix d m -> (vec = true -> em_cols m = 1) ->
  exists file,
    save false d m = Ok file
    /\ load false d (em_rowmajor m) vec jk (mk_stream (file ++ rest) true)
       = Ok (m, mk_stream rest true).
Proof.
  intros Hd Hm Hv. destruct (matrix_roundtrip false d m (em_rowmajor m) vec jk rest Hd Hm Hv)
    as (file & m' & S & L & Erm & El & Hsame).
  exists file. split; [exact S|]. rewrite L. do 2 f_equal.
  apply same_matrix_eq; auto. apply Hm.
Qed.

Lemma model_roundtrip m j1 j2 j3 rest :
  valid_matrix F8 (mf_alpha m) -> em_cols (mf_alpha m) = 1 -> em_rowmajor (mf_alpha m) = false ->
  valid_matrix F8 (mf_beta m) -> em_rowmajor (mf_beta m) = false ->
  valid_matrix F8 (mf_eta m) -> em_rowmajor (mf_eta m) = false ->
  exists file, save_lda false m = Ok file
    /\ load_lda false j1 j2 j3 (mk_stream (file ++ rest) true) = Ok m.
Proof.
  intros Ha Ha1 Ha2 Hb Hb2 He He2.
  destruct (matrix_roundtrip_same F8 (mf_eta m) false j3 rest) as (fe & Se & Le); try easy.
  destruct (matrix_roundtrip_same F8 (mf_beta m) false j2 (fe ++ rest)) as (fb & Sb & Lb); try easy.
  destruct (matrix_roundtrip_same F8 (mf_alpha m) true j1 (fb ++ fe ++ rest)) as (fa & Sa & La); try easy.
  exists (fa ++ fb ++ fe). unfold save_lda, load_lda. rewrite Sa, Sb, Se. cbn [bind].
  split; [reflexivity|]. rewrite <- !app_assoc.
  rewrite Ha2 in La. rewrite Hb2 in Lb. rewrite He2 in Le.
  rewrite La. cbn [bind]. rewrite Lb. cbn [bind]. rewrite Le. cbn [bind]. now destruct m.
Qed.

Lemma input_roundtrip x y j1 j2 rest :
  valid_matrix I4 x -> em_rowmajor x = false -> valid_matrix I4 y -> em_rowmajor y = false ->
  exists fx fy, save false I4 x = Ok fx /\ save false I4 y = Ok fy
    /\ parse_input_data false j1 j2 (mk_stream (fx ++ fy ++ rest) true) = Ok (x, y)
    /\ parse_input_data_x false j1 (mk_stream (fx ++ fy ++ rest) true) = Ok x.
Proof.
  intros Hx Hx2 Hy Hy2.
  destruct (matrix_roundtrip_same I4 y false j2 rest) as (fy & Sy & Ly); try easy.
  destruct (matrix_roundtrip_same I4 x false j1 (fy ++ rest)) as (fx & Sx & Lx); try easy.
  exists fx, fy. rewrite Hx2 in Lx. rewrite Hy2 in Ly.
  repeat split; try assumption.
  - unfold parse_input_data. rewrite Lx. cbn [bind]. rewrite Ly. reflexivity.
  - unfold parse_input_data_x. rewrite Lx. reflexivity.
Qed.

(** Any sequence of arrays in one stream. *)
Fixpoint save_all (l : list (dtype * emat)) : outcome (list ascii) :=
  match l with
  | [] => Ok []
  | (d, m) :: r => let* a := save false d m in let* b := save_all r in Ok (a ++ b)
  end.

Fixpoint load_all (l : list (dtype * bool * junk)) (s : stream) : outcome (list emat * stream) :=
  match l with
  | [] => Ok ([], s)
  | (d, rm, jk) :: r =>
      let* (m, s) := load false d rm false jk s in
      let* (ms, s) := load_all r s in Ok (m :: ms, s)
  end.

Lemma sequence_roundtrip l jks rest :
  Forall (fun p => supported (fst p) /\ valid_matrix (fst p) (snd p)) l ->
  length jks = length l ->
  exists file, save_all l = Ok file
    /\ load_all (map (fun q => (fst (fst q), em_rowmajor (snd (fst q)), snd q)) (combine l jks))
                (mk_stream (file ++ rest) true)
       = Ok (map snd l, mk_stream rest true).
Proof.
  intros H. revert jks. induction H as [|[d m] l [Hd Hm] H IH]; intros jks Hj.
  - exists []. destruct jks; [|easy]. split; reflexivity.
  - destruct jks as [|jk jks]; [easy|]. destruct (IH jks) as (fr & Sr & Lr); [cbn in Hj; lia|].
    destruct (matrix_roundtrip_same d m false jk (fr ++ rest)) as (f & S & L); try easy.
    exists (f ++ fr). cbn [save_all combine map load_all fst snd] in *.
    rewrite S, Sr. cbn [bind]. split; [reflexivity|]. rewrite <- app_assoc, L. cbn [bind].
    rewrite Lr. reflexivity.
Qed.

(* ---------- well-formedness of written files ---------- *)

Lemma le16_spec n : (N.of_nat n < 65536)%N ->
  le16 n = [ascii_of_nat (n mod 256); ascii_of_nat (n / 256)].
Proof.
  intros H. unfold le16. rewrite (N.mod_small (N.of_nat n) 65536) by assumption.
  unfold ascii_of_nat.
  rewrite Nat2N.inj_mod, Nat2N.inj_div. reflexivity.
Qed.

Lemma magic_spec : magic_and_version = npy_magic "001" "000".
Proof. reflexivity. Qed.

Lemma dims_body_numerals shape :
  Forall (fun n => 0 <= n)%Z shape ->
  exists ns, Forall2 is_numeral ns shape
    /\ dims_body shape = concat (map (fun n => n ++ text ", ") ns).
Proof.
  intros H. exists (map dec shape). split.
  - induction H; cbn; constructor; auto. now apply dec_numeral.
  - unfold dims_body. rewrite flat_map_concat_map, map_map. reflexivity.
Qed.

Lemma written_file_form big d shape fortran data file :
  Forall (fun n => 0 <= n)%Z shape ->
  (N.of_nat (length (header big d shape fortran)) < 65536)%N ->
  write_npy big d (mk_npout data shape fortran) = Ok file ->
  Forall (fun e => length e = dsize d) data ->
  exists ns pad hdr body,
    Forall2 is_numeral ns shape
    /\ hdr = text "{'descr': '" ++ text (if big then ">" else "<") ++ dtype_for_scalar d
             ++ text "', 'fortran_order': " ++ text (if fortran then "True" else "False")
             ++ text ", 'shape': (" ++ concat (map (fun n => n ++ text ", ") ns) ++ text ")}"
             ++ repeat " "%char pad ++ ["010"%char]
    /\ file = npy_file hdr body
    /\ (10 + length hdr) mod 16 = 0
    /\ length body = Z.to_nat (out_count shape) * dsize d
    /\ body = firstn (length body) (concat data).
Proof.
  intros Hs Hh Hw He. unfold write_npy in Hw. cbn [no_data no_shape no_fortran] in Hw.
  destruct (Nat.leb_spec (Z.to_nat (out_count shape)) (length data)) as [Hle|]; [|discriminate].
  injection Hw as <-.
  destruct (header_hform big d shape fortran) as (p & Hp & E & Ha).
  destruct (dims_body_numerals shape Hs) as (ns & Hns & Eb).
  exists ns, p, (header big d shape fortran), (concat (firstn (Z.to_nat (out_count shape)) data)).
  assert (He' : Forall (fun e => length e = dsize d) (firstn (Z.to_nat (out_count shape)) data)).
  { apply Forall_forall. intros x Hx. apply (proj1 (Forall_forall _ _) He).
    rewrite <- (firstn_skipn (Z.to_nat (out_count shape)) data). apply in_or_app. now left. }
  split; [easy|]. split.
  { rewrite E. unfold hform. rewrite Eb. destruct big, fortran; rewrite <- ?app_assoc; reflexivity. }
  split; [unfold npy_file; rewrite <- le16_spec by assumption; reflexivity|].
  split; [easy|]. split.
  - rewrite (concat_length_uniform (dsize d)) by assumption. rewrite firstn_length_le; lia.
  - rewrite <- (firstn_skipn (Z.to_nat (out_count shape)) data) at 3.
    rewrite concat_app, firstn_exact. reflexivity.
Qed.

(* ---------- files written by numpy ---------- *)

Lemma numpy_load d o fortran ns r rest pad data rm vec jk tail :
  supported d -> o <> zero ->
  Forall2 is_numeral ns (r :: rest) ->
  Forall (fun n => 1 <= n)%Z (r :: rest) -> (product (r :: rest) < 2 ^ 31)%Z ->
  (vec = true -> product rest = 1%Z) ->
  length data = Z.to_nat (product (r :: rest)) * dsize d ->
  (N.of_nat (length (numpy_header o (dtype_for_scalar d) fortran ns pad)) < 65536)%N ->
  exists m,
    load false d rm vec jk
      (mk_stream (npy_file (numpy_header o (dtype_for_scalar d) fortran ns pad) data ++ tail) true)
    = Ok (m, mk_stream tail true)
    /\ em_rows m = Z.to_nat r /\ em_cols m = Z.to_nat (product rest) /\ em_rowmajor m = rm
    /\ (forall j i, j < em_rows m -> i < em_cols m ->
         em_get m j i = element (dsize d) data (entry_index fortran (em_rows m) (em_cols m) j i)).
Proof.
  intros Hd Ho Hns Hpos Hp Hv Hl Hh.
  set (h := numpy_header o (dtype_for_scalar d) fortran ns pad) in *.
  assert (Hlt : Forall (fun n => n < 2 ^ 31)%Z (r :: rest)).
  { revert Hpos Hp. generalize (r :: rest). clear. intros l H.
    induction H as [|n l Hn H IH]; intros Hp; constructor;
      unfold product in Hp; cbn [fold_right] in Hp; fold (product l) in Hp;
      pose proof (product_pos l H); [nia|]. apply IH. nia. }
  assert (Hnum : numerals ns (r :: rest)).
  { revert Hlt Hns. generalize (r :: rest). clear. intros l Hlt Hns.
    induction Hns as [|x y ns l Hxy Hns IH]; [constructor|].
    inversion Hlt as [|? ? Hy Hl]; subst. constructor; [split; assumption|]. apply IH. exact Hl. }
  destruct (numpy_header_parse d o fortran ns (r :: rest) pad Hd Ho Hnum)
    as (N1 & (e & N2) & (t & T1 & T2) & N3).
  { intros ->. inversion Hns. }
  fold h in N1, N2, T1, N3.
  set (n := Z.to_nat (product (r :: rest))) in *.
  pose proof (product_pos _ Hpos) as Hpp.
  assert (R : read_npy false d jk (mk_stream (npy_file h data ++ tail) true)
              = Ok (mk_npin (chunk (dsize d) n data) (r :: rest) fortran, mk_stream tail true)).
  { unfold npy_file. rewrite <- le16_spec by assumption. rewrite <- !app_assoc.
    rewrite (read_npy_ok d jk (npy_magic "001" "000") h data tail t (r :: rest) n e); auto.
    - now rewrite T2.
    - cbn. lia.
    - rewrite in_count_product by assumption. unfold n. lia.
    - unfold n. lia. }
  assert (Hprod : product (r :: rest) = (r * product rest)%Z) by reflexivity.
  destruct (to_matrix_ok rm vec (chunk (dsize d) n data) r rest fortran) as (m & T & Er & Ec & Erm & El & Eg).
  - now inversion Hpos.
  - now inversion Hpos.
  - lia.
  - rewrite chunk_length. unfold n. now rewrite Hprod.
  - assumption.
  - exists m. split; [unfold load; rewrite R; cbn [bind]; now rewrite T|].
    repeat split; auto. intros j i Hj Hi. rewrite Eg by assumption. apply chunk_nth.
    assert (n = em_rows m * em_cols m).
    { unfold n. rewrite Er, Ec, Hprod. inversion Hpos; subst.
      pose proof (product_pos rest ltac:(assumption)). rewrite Z2Nat.inj_mul; lia. }
    unfold entry_index. destruct fortran; nia.
Qed.

(* ---------- dtype check ---------- *)

Lemma cstr_prefix l : exists r, l = cstr l ++ r.
Proof.
  induction l as [|c l [r IH]]; [now exists []|]. cbn. destruct (Ascii.eqb_spec c zero) as [->|N].
  - now exists (zero :: l).
  - exists r. cbn. now f_equal.
Qed.

Lemma cstr_padded_prefix hb n : exists r, hb = cstr (hb ++ repeat zero n) ++ r.
Proof.
  induction hb as [|c hb [r IH]].
  - cbn [app]. rewrite cstr_zeros. now exists [].
  - cbn [app cstr]. destruct (Ascii.eqb_spec c zero); [eexists; reflexivity|].
    exists r. cbn [app]. f_equal. exact IH.
Qed.

Lemma parse_dtype_ok d h e : supported d -> parse_dtype d h = Ok e ->
  exists o, firstn 3 (skipn 11 h) = o :: dtype_for_scalar d /\ 14 <= length h.
Proof.
  intros Hd H. unfold parse_dtype, substr, substr_from in H.
  destruct (Nat.leb_spec 11 (length h)) as [L|]; [|cbn in H; discriminate]. cbn [bind] in H.
  destruct (firstn 3 (skipn 11 h)) as [|o k] eqn:E; [cbn in H; discriminate|].
  cbn [length Nat.leb bind skipn] in H.
  destruct (list_eq_dec ascii_dec k (dtype_for_scalar d)) as [->|]; [|cbn in H; discriminate].
  exists o. split; [easy|].
  assert (length (firstn 3 (skipn 11 h)) = 3).
  { rewrite E. destruct (supported_code d Hd) as (c1 & c2 & -> & _). reflexivity. }
  rewrite firstn_length, skipn_length in H0. lia.
Qed.

Lemma read_ok_dtype big d jk s r :
  supported d -> read_npy big d jk s = Ok r ->
  firstn 2 (skipn 22 (st_rest s)) = dtype_for_scalar d /\ st_good s = true.
Proof.
  intros Hd H. unfold read_npy in H.
  destruct (sread 8 s) as [m s1] eqn:E1.
  destruct (signed_char (nth 6 m (jk_version jk)) >? 1)%Z; [discriminate|].
  destruct (Nat.eqb_spec (length m) 0); [discriminate|].
  destruct (sread 2 s1) as [lb s2] eqn:E2.
  match type of H with context [sread ?n s2] => set (hl := n) in H end.
  destruct (sread hl s2) as [hb s3] eqn:E3. cbv zeta in H.
  set (h := cstr (hb ++ repeat zero (hl - length hb))) in *.
  destruct (parse_dtype d h) as [e| |] eqn:Ed; [|cbn in H; discriminate|cbn in H; discriminate].
  destruct (parse_dtype_ok d h e Hd Ed) as (o & Ho & Hlen).
  destruct (supported_code d Hd) as (c1 & c2 & Ec & Hcn). rewrite Ec in *.
  (* h is a prefix of hb *)
  assert (Hpre : exists r', hb = h ++ r').
  { apply cstr_padded_prefix. }
  destruct Hpre as (r' & Ehb).
  assert (Hhb : 14 <= length hb) by (rewrite Ehb, app_length; lia).
  unfold sread in E3. destruct (st_good s2) eqn:G2; [|injection E3 as <- <-; cbn in Hhb; lia].
  apply pair_equal_spec in E3; destruct E3 as [E3 _].
  unfold sread in E2. destruct (st_good s1) eqn:G1;
    [|injection E2 as <- <-; congruence].
  apply pair_equal_spec in E2; destruct E2 as [_ E2]. subst s2. cbn [st_good st_rest] in *.
  unfold sread in E1. destruct (st_good s) eqn:G;
    [|injection E1 as <- <-; cbn in n; lia].
  apply pair_equal_spec in E1; destruct E1 as [_ E1]. subst s1. cbn [st_good st_rest] in *.
  split; [|reflexivity].
  rewrite skipn_skipn_add in E3. cbn [Nat.add] in E3.
  assert (E4 : firstn 3 (skipn 11 hb) = [o; c1; c2]).
  { rewrite Ehb, skipn_app, firstn_app, Ho, skipn_length.
    replace (3 - (length h - 11)) with 0 by lia. reflexivity. }
  set (R := st_rest s) in *.
  assert (Hhl : 14 <= hl).
  { rewrite <- E3 in Hhb. rewrite firstn_length in Hhb. lia. }
  rewrite <- E3 in E4. rewrite skipn_firstn_comm, firstn_firstn in E4.
  rewrite Nat.min_l in E4 by lia. rewrite skipn_skipn_add in E4. cbn [Nat.add] in E4.
  replace 22 with (21 + 1) by lia. rewrite <- skipn_skipn_add.
  change [c1; c2] with (skipn 1 [o; c1; c2]). rewrite <- E4.
  rewrite skipn_firstn_comm. reflexivity.
Qed.

(** Nothing shorter than 24 bytes is ever accepted, and it is always an
    exception, whatever the uninitialised memory holds. *)
Lemma short_throws d jk s :
  supported d -> length (st_rest s) < 24 -> exists e, read_npy false d jk s = Throw e.
Proof.
  intros Hd Hlen. unfold read_npy.
  destruct (sread 8 s) as [m s1] eqn:E1.
  destruct (signed_char (nth 6 m (jk_version jk)) >? 1)%Z; [eauto|].
  destruct (Nat.eqb_spec (length m) 0); [eauto|].
  destruct (sread 2 s1) as [lb s2] eqn:E2.
  match goal with |- context [sread ?n s2] => set (hl := n) end.
  destruct (sread hl s2) as [hb s3] eqn:E3. cbv zeta.
  set (h := cstr (hb ++ repeat zero (hl - length hb))).
  assert (Hpre : exists r', hb = h ++ r').
  { apply cstr_padded_prefix. }
  destruct Hpre as (r' & Ehb).
  assert (Hhb : length hb < 14).
  { unfold sread in E3. destruct (st_good s2) eqn:G2; [|injection E3 as <- <-; cbn; lia].
    apply pair_equal_spec in E3; destruct E3 as [<- _].
    unfold sread in E2. destruct (st_good s1) eqn:G1; [|injection E2 as <- <-; congruence].
    apply pair_equal_spec in E2; destruct E2 as [_ <-]. cbn [st_rest st_good] in *.
    unfold sread in E1. destruct (st_good s) eqn:G; [|injection E1 as <- <-; cbn in n; lia].
    apply pair_equal_spec in E1; destruct E1 as [_ <-]. cbn [st_rest st_good] in *.
    rewrite firstn_length, !skipn_length. apply Nat.leb_le in G2, G1. rewrite skipn_length in G2. lia. }
  assert (Hh : length h < 14) by (apply (f_equal (@length _)) in Ehb; rewrite app_length in Ehb; lia).
  destruct (parse_dtype d h) as [e|e|] eqn:Ed.
  - destruct (parse_dtype_ok d h e Hd Ed) as (o & _ & ?). lia.
  - cbn [bind]. eauto.
  - exfalso. unfold parse_dtype, substr, substr_from in Ed.
    destruct (11 <=? length h); [|cbn in Ed; discriminate]. cbn [bind] in Ed.
    destruct (firstn 3 (skipn 11 h)); [cbn in Ed; discriminate|].
    cbn [length Nat.leb bind skipn] in Ed.
    destruct list_eq_dec; discriminate.
Qed.

(* ---------- what the reader does not check ---------- *)

(** The first eight bytes are ignored except for the version byte. *)
Lemma magic_ignored big d jk m1 m2 r :
  length m1 = 8 -> length m2 = 8 ->
  (signed_char (nth 6 m1 zero) <= 1)%Z -> (signed_char (nth 6 m2 zero) <= 1)%Z ->
  read_npy big d jk (mk_stream (m1 ++ r) true) = read_npy big d jk (mk_stream (m2 ++ r) true).
Proof.
  intros H1 H2 V1 V2. unfold read_npy.
  rewrite (sread_app 8 m1), (sread_app 8 m2) by assumption.
  rewrite (nth_indep m1 (jk_version jk) zero), (nth_indep m2 (jk_version jk) zero) by lia.
  replace (signed_char (nth 6 m1 zero) >? 1)%Z with false
    by (symmetry; rewrite Z.gtb_ltb; apply Z.ltb_ge; lia).
  replace (signed_char (nth 6 m2 zero) >? 1)%Z with false
    by (symmetry; rewrite Z.gtb_ltb; apply Z.ltb_ge; lia).
  rewrite H1, H2. reflexivity.
Qed.

(** Missing data bytes read as zero. *)
Lemma read_npy_short_data d jk m h db t shape n e :
  length m = 8 ->
  (signed_char (nth 6 m (jk_version jk)) <= 1)%Z ->
  (N.of_nat (length h) < 65536)%N ->
  nonzero_bytes h ->
  parse_dtype d h = Ok e ->
  char_at h 34 = Ok t ->
  parse_header_shape h = Ok shape ->
  in_count shape = Z.of_nat n -> 0 < n ->
  length db < n * dsize d ->
  read_npy false d jk (mk_stream (m ++ le16 (length h) ++ h ++ db) true)
  = Ok (mk_npin (chunk (dsize d) n (db ++ repeat zero (n * dsize d - length db))) shape
          (Ascii.eqb t "T"), mk_stream [] false).
Proof.
  intros Hm Hv Hh Hnz Hd Ht Hs Hc Hn Hdb. unfold read_npy.
  rewrite (sread_app 8 m) by easy.
  replace (signed_char (nth 6 m (jk_version jk)) >? 1)%Z with false
    by (symmetry; rewrite Z.gtb_ltb; apply Z.ltb_ge; lia).
  rewrite Hm. cbn [Nat.eqb].
  rewrite (sread_app 2 (le16 (length h))) by easy.
  replace (nth 0 (le16 (length h)) (jk_len0 jk)) with (nth 0 (le16 (length h)) zero) by reflexivity.
  replace (nth 1 (le16 (length h)) (jk_len1 jk)) with (nth 1 (le16 (length h)) zero) by reflexivity.
  cbv zeta. rewrite le16_decode by easy.
  rewrite (sread_app (length h) h) by easy.
  rewrite Nat.sub_diag. cbn [repeat]. rewrite app_nil_r, cstr_nonzero' by easy.
  rewrite Hd. cbn [bind]. rewrite Ht. cbn [bind]. rewrite Hs. cbn [bind].
  rewrite Hc. replace (Z.of_nat n <? 0)%Z with false by (symmetry; apply Z.ltb_ge; lia).
  replace (Z.of_nat n =? 0)%Z with false by (symmetry; apply Z.eqb_neq; lia).
  rewrite Nat2Z.id. unfold sread. cbn [st_good st_rest].
  rewrite firstn_all2, skipn_all2 by lia.
  rewrite (proj2 (Nat.leb_gt _ _)) by lia.
  unfold swap_endianess. now destruct (Bool.eqb e false).
Qed.

Lemma truncated_accepted d m jk c :
  supported d -> valid_matrix d m ->
  let total := em_rows m * em_cols m * dsize d in
  c < total ->
  exists prefix m',
    save false d m = Ok (prefix ++ concat (em_store m))
    /\ length (concat (em_store m)) = total
    /\ load false d false false jk (mk_stream (prefix ++ firstn c (concat (em_store m))) true)
       = Ok (m', mk_stream [] false)
    /\ em_rows m' = em_rows m /\ em_cols m' = em_cols m
    /\ (forall j i, j < em_rows m -> i < em_cols m ->
          em_get m' j i
          = element (dsize d) (firstn c (concat (em_store m)) ++ repeat zero (total - c))
              (entry_index (negb (em_rowmajor m)) (em_rows m) (em_cols m) j i)).
Proof.
  intros Hd (Hr & Hc & Hp & Hl & He) total Hk.
  set (r := Z.of_nat (em_rows m)) in *. set (cc := Z.of_nat (em_cols m)) in *.
  set (h := header false d [r; cc] (negb (em_rowmajor m))).
  assert (Hpos : Forall (fun n => 1 <= n)%Z [r; cc]) by (repeat constructor; lia).
  assert (Hpr : product [r; cc] = (r * cc)%Z) by apply product2.
  assert (Hdata : length (concat (em_store m)) = total).
  { rewrite (concat_length_uniform (dsize d)) by assumption. unfold total. now rewrite Hl. }
  assert (Hs' : Forall (fun n => 0 <= n < 2 ^ 31)%Z [r; cc]) by (repeat constructor; nia).
  destruct (header_parse false d [r; cc] (negb (em_rowmajor m)) Hd Hs') as (N1 & N2 & (t & T1 & T2) & N3).
  assert (Hh : (N.of_nat (length h) < 65536)%N).
  { pose proof (header_length2 false d r cc (negb (em_rowmajor m)) Hd).
    assert (length h <= 200) by (apply H; nia). lia. }
  set (n := em_rows m * em_cols m) in *.
  set (db := firstn c (concat (em_store m))) in *.
  assert (Hdb : length db = c) by (unfold db; rewrite firstn_length; lia).
  destruct (to_matrix_ok false false (chunk (dsize d) n (db ++ repeat zero (total - c))) r [cc] (negb (em_rowmajor m)))
      as (m' & T & Er & Ec & Erm & El & Eg).
  { lia. } { repeat constructor; lia. } { unfold product; cbn; lia. }
  { rewrite chunk_length. unfold product; cbn. unfold n, r, cc. lia. } { easy. }
  assert (Ec' : em_cols m' = em_cols m) by (rewrite Ec; unfold product, cc; cbn; lia).
  assert (Er' : em_rows m' = em_rows m) by (rewrite Er; unfold r; lia).
  exists (magic_and_version ++ le16 (length h) ++ h), m'.
  split; [|split; [|split; [|split; [|split]]]]; auto.
  - unfold save, npout_of_emat, write_npy. cbn [no_data no_shape no_fortran].
    fold r cc. fold h. rewrite out_count_product by (try assumption; lia).
    rewrite Hpr. replace (Z.to_nat (r * cc)) with (length (em_store m)).
    2:{ rewrite Hl. unfold r, cc. lia. }
    rewrite Nat.leb_refl, firstn_all. rewrite <- !app_assoc. reflexivity.
  - unfold load. rewrite <- !app_assoc.
    rewrite (read_npy_short_data d jk magic_and_version h db t [r; cc] n false); auto.
    + cbn [bind]. rewrite T2, Hdb. fold total. rewrite T. reflexivity.
    + cbn. lia.
    + rewrite in_count_product by (try assumption; lia). rewrite Hpr. unfold n, r, cc. lia.
    + unfold n. nia.
    + fold total. lia.
  - intros j i Hj Hi. rewrite Eg by lia. rewrite chunk_nth.
    + now rewrite Er', Ec'.
    + unfold entry_index, n. rewrite Er', Ec'. destruct (negb (em_rowmajor m)); nia.
Qed.

(** A shape whose product wraps around makes the reader run off its buffer. *)
Lemma overflow_shape_ub d o fortran ns r c pad data jk rm vec :
  supported d -> o <> zero ->
  Forall2 is_numeral ns [r; c] -> (1 <= r < 2 ^ 31)%Z -> (1 <= c < 2 ^ 31)%Z ->
  (0 < wrap32 (wrap64 (r * c)) < r * c)%Z ->
  (N.of_nat (length (numpy_header o (dtype_for_scalar d) fortran ns pad)) < 65536)%N ->
  load false d rm vec jk
    (mk_stream (npy_file (numpy_header o (dtype_for_scalar d) fortran ns pad) data) true) = UB.
Proof.
  intros Hd Ho Hns Hr Hc Hw Hh.
  set (h := numpy_header o (dtype_for_scalar d) fortran ns pad) in *.
  assert (Hnum : numerals ns [r; c]).
  { inversion Hns as [|? ? ? ? H1 H2]; subst. inversion H2 as [|? ? ? ? H3 H4]; subst.
    inversion H4; subst. repeat constructor; try assumption; try apply H1; try apply H3; lia. }
  destruct (numpy_header_parse d o fortran ns [r; c] pad Hd Ho Hnum)
    as (N1 & (e & N2) & (t & T1 & T2) & N3).
  { intros ->. inversion Hns. }
  fold h in N1, N2, T1, N3.
  set (n := Z.to_nat (wrap32 (wrap64 (r * c)))).
  assert (Hcnt : in_count [r; c] = Z.of_nat n).
  { unfold in_count. cbn [fold_left]. rewrite (wrap64_small 1), Z.mul_1_l by lia.
    rewrite !(wrap64_small r), (wrap32_small r), (wrap64_small r) by lia. unfold n. lia. }
  assert (Hn : 0 < n) by (unfold n; lia).
  unfold load, npy_file. rewrite <- le16_spec by assumption.
  destruct (Nat.lt_ge_cases (length data) (n * dsize d)) as [Hlt|Hge].
  - rewrite (read_npy_short_data d jk (npy_magic "001" "000") h data t [r; c] n e); auto.
    + cbn [bind]. rewrite to_matrix_overrun; auto; try lia. rewrite chunk_length. unfold n. lia.
    + cbn. lia.
  - rewrite <- (firstn_skipn (n * dsize d) data).
    rewrite (read_npy_ok d jk (npy_magic "001" "000") h (firstn (n * dsize d) data)
               (skipn (n * dsize d) data) t [r; c] n e); auto.
    + cbn [bind]. rewrite to_matrix_overrun; auto; try lia. rewrite chunk_length. unfold n. lia.
    + cbn. lia.
    + rewrite firstn_length. lia.
Qed.

(** A wrong element code is refused, whatever the rest of the file. *)
Lemma dtype_rejected d o c1 c2 fortran body close data jk :
  supported d -> [c1; c2] <> dtype_for_scalar d ->
  o <> zero -> nonzero_bytes [c1; c2] -> nonzero_bytes body -> nonzero_bytes close ->
  (N.of_nat (length (hform o [c1; c2] fortran body close)) < 65536)%N ->
  read_npy false d jk (mk_stream (npy_file (hform o [c1; c2] fortran body close) data) true)
  = Throw ERuntime.
Proof.
  intros Hd Hne Ho Hcn Hb Hcl Hh.
  pose proof (hform_nonzero o c1 c2 fortran body close Ho Hcn Hb Hcl) as Hnz.
  pose proof (hform_dtype d o c1 c2 fortran body close) as Hdt.
  destruct (list_eq_dec ascii_dec [c1; c2] (dtype_for_scalar d)); [contradiction|].
  set (h := hform o [c1; c2] fortran body close) in *.
  unfold npy_file. rewrite <- le16_spec by assumption. unfold read_npy.
  rewrite (sread_app 8 (npy_magic "001" "000")) by reflexivity.
  cbn [npy_magic nth length Nat.eqb].
  replace (signed_char "001" >? 1)%Z with false by reflexivity.
  rewrite (sread_app 2 (le16 (length h))) by easy.
  replace (nth 0 (le16 (length h)) (jk_len0 jk)) with (nth 0 (le16 (length h)) zero) by reflexivity.
  replace (nth 1 (le16 (length h)) (jk_len1 jk)) with (nth 1 (le16 (length h)) zero) by reflexivity.
  cbv zeta. rewrite le16_decode by easy.
  rewrite (sread_app (length h) h) by easy.
  rewrite Nat.sub_diag. cbn [repeat]. rewrite app_nil_r, cstr_nonzero' by easy.
  rewrite Hdt. reflexivity.
Qed.

Lemma dtype_rejected_saved wb d1 d2 m jk :
  supported d1 -> supported d2 -> d1 <> d2 -> valid_matrix d1 m ->
  exists file, save wb d1 m = Ok file
    /\ forall rest rm vec, load false d2 rm vec jk (mk_stream (file ++ rest) true) = Throw ERuntime.
Proof.
  intros H1 H2 Hne (Hr & Hc & Hp & Hl & He).
  set (r := Z.of_nat (em_rows m)) in *. set (c := Z.of_nat (em_cols m)) in *.
  set (f := negb (em_rowmajor m)).
  set (h := header wb d1 [r; c] f).
  assert (Hh : (N.of_nat (length h) < 65536)%N).
  { pose proof (header_length2 wb d1 r c f H1). assert (length h <= 200) by (apply H; nia). lia. }
  exists (npy_file h (concat (em_store m))). split.
  - unfold save, npout_of_emat, write_npy. cbn [no_data no_shape no_fortran]. fold r c f. fold h.
    rewrite out_count_product by (try (repeat constructor; lia); rewrite product2; lia).
    rewrite product2. replace (Z.to_nat (r * c)) with (length (em_store m)).
    2:{ rewrite Hl. unfold r, c. lia. }
    rewrite Nat.leb_refl, firstn_all. unfold npy_file. rewrite <- le16_spec by assumption. reflexivity.
  - intros rest rm vec. unfold load.
    replace (npy_file h (concat (em_store m)) ++ rest)
      with (npy_file h (concat (em_store m) ++ rest))
      by (unfold npy_file; rewrite <- !app_assoc; reflexivity).
    destruct (header_hform wb d1 [r; c] f) as (p & _ & E & _). fold h in E. 
    destruct (supported_code d1 H1) as (c1 & c2 & Ec & Hcn). rewrite Ec in E.
    assert (Hs0 : Forall (fun n => 0 <= n)%Z [r; c]) by (repeat constructor; lia).
    destruct (dims_body_props [r; c] Hs0) as (B1 & _ & _).
    rewrite E in *. rewrite dtype_rejected; auto.
    + rewrite <- Ec. intros X. destruct d1, d2; try contradiction; try discriminate; now apply Hne.
    + destruct wb; discriminate.
    + apply nonzero_app. split; [apply nonzero_dec; reflexivity|apply blanks_nonzero].
Qed.

Lemma empty_throws big d jk good : read_npy big d jk (mk_stream [] good) = Throw ERuntime.
Proof.
  unfold read_npy, sread. cbn [st_good st_rest]. 
  destruct good; cbn [firstn nth length Nat.eqb];
    destruct (signed_char (jk_version jk) >? 1)%Z; reflexivity.
Qed.

Lemma honest_shape_safe d o fortran ns r rest pad data rm jk :
  supported d -> o <> zero ->
  Forall2 is_numeral ns (r :: rest) ->
  Forall (fun n => 1 <= n)%Z (r :: rest) -> (product (r :: rest) < 2 ^ 31)%Z ->
  (N.of_nat (length (numpy_header o (dtype_for_scalar d) fortran ns pad)) < 65536)%N ->
  exists m s,
    load false d rm false jk
      (mk_stream (npy_file (numpy_header o (dtype_for_scalar d) fortran ns pad) data) true)
    = Ok (m, s).
Proof.
  intros Hd Ho Hns Hpos Hp Hh.
  set (h := numpy_header o (dtype_for_scalar d) fortran ns pad) in *.
  set (n := Z.to_nat (product (r :: rest))) in *.
  destruct (Nat.lt_ge_cases (length data) (n * dsize d)) as [Hlt|Hge].
  2:{ destruct (numpy_load d o fortran ns r rest pad (firstn (n * dsize d) data) rm false jk
                 (skipn (n * dsize d) data)) as (m & L & _); auto; try discriminate.
      - rewrite firstn_length. lia.
      - fold h in L. exists m, (mk_stream (skipn (n * dsize d) data) true). rewrite <- L.
        unfold npy_file. rewrite <- !app_assoc, firstn_skipn. reflexivity. }
  assert (Hlt' : Forall (fun n => n < 2 ^ 31)%Z (r :: rest)).
  { revert Hpos Hp. generalize (r :: rest). clear. intros l H.
    induction H as [|n l Hn H IH]; intros Hp; constructor;
      unfold product in Hp; cbn [fold_right] in Hp; fold (product l) in Hp;
      pose proof (product_pos l H); [nia|]. apply IH. nia. }
  assert (Hnum : numerals ns (r :: rest)).
  { revert Hlt' Hns. generalize (r :: rest). clear. intros l Hlt Hns.
    induction Hns as [|x y ns l Hxy Hns IH]; [constructor|].
    inversion Hlt as [|? ? Hy Hl]; subst. constructor; [split; assumption|]. apply IH. exact Hl. }
  destruct (numpy_header_parse d o fortran ns (r :: rest) pad Hd Ho Hnum)
    as (N1 & (e & N2) & (t & T1 & T2) & N3).
  { intros ->. inversion Hns. }
  fold h in N1, N2, T1, N3.
  pose proof (product_pos _ Hpos) as Hpp.
  unfold load, npy_file. rewrite <- le16_spec by assumption.
  rewrite (read_npy_short_data d jk (npy_magic "001" "000") h data t (r :: rest) n e); auto.
  - cbn [bind].
    destruct (to_matrix_ok rm false
       (chunk (dsize d) n (data ++ repeat zero (n * dsize d - length data))) r rest (Ascii.eqb t "T"))
      as (m & T & _).
    + now inversion Hpos.
    + now inversion Hpos.
    + exact Hp.
    + rewrite chunk_length. reflexivity.
    + discriminate.
    + rewrite T. cbn [bind]. eauto.
  - cbn. lia.
  - rewrite in_count_product by assumption. unfold n. lia.
  - unfold n. lia.
Qed.

Lemma single_byte_roundtrip wb d m rm vec jk rest :
  supported d -> valid_matrix d m -> (vec = true -> em_cols m = 1) ->
  exists file m',
    save wb d m = Ok file
    /\ load false d rm vec jk (mk_stream (file ++ rest) true) = Ok (m', mk_stream rest true)
    /\ same_matrix m' m
    /\ (dsize d = 1 -> forall j i, j < em_rows m -> i < em_cols m ->
         unsigned_value false (em_get m' j i) = unsigned_value wb (em_get m j i)).
Proof.
  intros Hd Hm Hv. destruct (matrix_roundtrip wb d m rm vec jk rest Hd Hm Hv)
    as (file & m' & S & L & _ & _ & Hs).
  exists file, m'. repeat split; try assumption; try apply Hs.
  intros D1 j i Hj Hi. destruct Hs as (E1 & E2 & E3). rewrite E3 by lia.
  destruct Hm as (_ & _ & _ & Hl & Hf).
  assert (Hlen : length (em_get m j i) = 1).
  { rewrite <- D1. unfold em_get. rewrite Forall_forall in Hf. apply Hf. apply nth_In.
    rewrite Hl. destruct (em_rowmajor m); nia. }
  destruct (em_get m j i) as [|a [|b l]]; try discriminate. now destruct wb.
Qed.
