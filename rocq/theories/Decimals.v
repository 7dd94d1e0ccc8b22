(** strconv.Itoa, ParseInt and ParseUint in base ten. *)
From Coq Require Import Decimal DecimalN DecimalPos.
From Verif Require Import GoStr GoStrProofs.

(** The digits of a Decimal.uint, as bytes. *)
Fixpoint digit_text (d : uint) : str :=
  match d with
  | Nil => []
  | D0 d => 48 :: digit_text d | D1 d => 49 :: digit_text d | D2 d => 50 :: digit_text d
  | D3 d => 51 :: digit_text d | D4 d => 52 :: digit_text d | D5 d => 53 :: digit_text d
  | D6 d => 54 :: digit_text d | D7 d => 55 :: digit_text d | D8 d => 56 :: digit_text d
  | D9 d => 57 :: digit_text d
  end%N.
(** strconv.Itoa: '-' and the digits. *)
Definition itoa (z : Z) : str :=
  match Z.to_int z with
  | Pos d => digit_text d
  | Neg d => c_dash :: digit_text d
  end.


(** The value of a text of digits; None if some byte is no digit. *)
Fixpoint digits_val (acc : N) (s : str) : option N :=
  match s with
  | [] => Some acc
  | c :: s' => if is_digit c then digits_val (10 * acc + (c - 48))%N s' else None
  end.
(** strconv.ParseUint(s, 10, bits); None is an error (syntax or range). *)
Definition parse_uint (bits : nat) (s : str) : option Z :=
  match s with
  | [] => None
  | _ => match digits_val 0 s with
         | Some n => if (n <? 2 ^ N.of_nat bits)%N then Some (Z.of_N n) else None
         | None => None
         end
  end.
(** strconv.ParseInt(s, 10, bits). *)
Definition parse_int (bits : nat) (s : str) : option Z :=
  match s with
  | [] => None
  | c :: s' =>
      let neg := N.eqb c c_dash in
      match parse_uint 64 (if neg || N.eqb c 43 (* '+' *) then s' else s) with
      | None => None
      | Some n =>
          if neg then (if (n <=? 2 ^ (Z.of_nat bits - 1))%Z then Some (- n)%Z else None)
          else (if (n <? 2 ^ (Z.of_nat bits - 1))%Z then Some n else None)
      end
  end.

(** ** Proofs *)
Lemma digits_val_acc : forall d p, digits_val (Npos p) (digit_text d) = Some (Npos (Pos.of_uint_acc d p)).
Proof.
  induction d; intro p; cbn [digit_text digits_val]; [reflexivity|..];
  match goal with |- context [is_digit ?c] => change (is_digit c) with true end; cbn iota;
  cbn [Pos.of_uint_acc]; rewrite <- IHd; f_equal; unfold Pos.of_uint_acc; lia.
Qed.
Lemma digits_val_text : forall d, digits_val 0 (digit_text d) = Some (N.of_uint d).
Proof.
  unfold N.of_uint. induction d; cbn [digit_text digits_val Pos.of_uint]; [reflexivity|..];
  match goal with |- context [is_digit ?c] => change (is_digit c) with true end; cbn iota;
  [exact IHd|..]; rewrite <- digits_val_acc; f_equal.
Qed.
Lemma to_uint_ne : forall n, digit_text (N.to_uint n) <> [].
Proof.
  intros [|p]; [discriminate|]. cbn. pose proof (DecimalPos.Unsigned.to_uint_nonnil p) as H.
  destruct (Pos.to_uint p); try discriminate. contradiction.
Qed.
Lemma itoa_of_N : forall n, itoa (Z.of_N n) = digit_text (N.to_uint n).
Proof. intros [|p]; reflexivity. Qed.
Lemma parse_uint_itoa : forall bits n, (n < 2 ^ N.of_nat bits)%N -> parse_uint bits (itoa (Z.of_N n)) = Some (Z.of_N n).
Proof.
  intros bits n H. rewrite itoa_of_N. unfold parse_uint. destruct (digit_text (N.to_uint n)) as [|c s] eqn:E; [destruct (to_uint_ne n E)|].
  rewrite <- E, digits_val_text, DecimalN.Unsigned.of_to. apply N.ltb_lt in H. rewrite H. reflexivity.
Qed.
Lemma digit_text_head : forall d c s, digit_text d = c :: s -> is_digit c = true.
Proof. intros [|d|d|d|d|d|d|d|d|d|d] c s H; cbn in H; inversion H; reflexivity. Qed.
Lemma digit_text_digits : forall d, Forall (fun c => is_digit c = true) (digit_text d).
Proof. induction d; cbn [digit_text]; [constructor|..]; (constructor; [reflexivity|assumption]). Qed.
Lemma parse_int_itoa : forall bits z, 0 < bits <= 64 -> (- 2 ^ (Z.of_nat bits - 1) <= z < 2 ^ (Z.of_nat bits - 1))%Z ->
  parse_int bits (itoa z) = Some z.
Proof.
  intros bits z Hb Hz.
  assert (Hp : (2 ^ (Z.of_nat bits - 1) <= 2 ^ 63)%Z) by (apply Z.pow_le_mono_r; lia).
  assert (H63 : (2 ^ 63 < 2 ^ 64)%Z) by reflexivity.
  assert (HN : forall n, (Z.of_N n <= 2 ^ 63)%Z -> (n < 2 ^ N.of_nat 64)%N).
  { intros n Hn. apply N2Z.inj_lt. replace (Z.of_N (2 ^ N.of_nat 64)) with (2 ^ 64)%Z by reflexivity. lia. }
  destruct (Z.le_gt_cases 0 z) as [Hz0|Hz0].
  - replace z with (Z.of_N (Z.to_N z)) in * by (apply Z2N.id; exact Hz0). remember (Z.to_N z) as n.
    assert (P : parse_uint 64 (itoa (Z.of_N n)) = Some (Z.of_N n)) by (apply parse_uint_itoa; apply HN; lia).
    rewrite itoa_of_N in *. unfold parse_int. destruct (digit_text (N.to_uint n)) as [|c s] eqn:E; [destruct (to_uint_ne n E)|].
    pose proof (digit_text_head _ _ _ E) as Hd.
    assert (N.eqb c c_dash = false) as -> by (apply N.eqb_neq; intros ->; discriminate).
    assert (N.eqb c 43 = false) as -> by (apply N.eqb_neq; intros ->; discriminate). cbn [orb]. rewrite P.
    replace (Z.of_N n <? 2 ^ (Z.of_nat bits - 1))%Z with true by (symmetry; apply Z.ltb_lt; lia). reflexivity.
  - destruct z as [|p|p]; try lia. cbn [itoa Z.to_int]. unfold parse_int. rewrite N.eqb_refl. cbn [orb].
    assert (P : parse_uint 64 (digit_text (Pos.to_uint p)) = Some (Z.of_N (Npos p))).
    { change (digit_text (Pos.to_uint p)) with (digit_text (N.to_uint (Npos p))). rewrite <- itoa_of_N. apply parse_uint_itoa.
      apply HN. cbn. lia. }
    rewrite P. replace (Z.of_N (N.pos p) <=? 2 ^ (Z.of_nat bits - 1))%Z with true by (symmetry; apply Z.leb_le; cbn; lia). reflexivity.
Qed.
Lemma itoa_inj : forall a b, itoa a = itoa b -> a = b.
Proof.
  assert (P : forall n m, digit_text (N.to_uint n) = digit_text (N.to_uint m) -> n = m).
  { intros n m E. assert (K : digits_val 0 (digit_text (N.to_uint n)) = digits_val 0 (digit_text (N.to_uint m))) by (rewrite E; reflexivity).
    rewrite !digits_val_text, !DecimalN.Unsigned.of_to in K. congruence. }
  assert (Hn : forall p s, digit_text (N.to_uint (Npos p)) = s -> hd 0%N s <> c_dash).
  { intros p [|c s] E; [cbn; discriminate|]. apply digit_text_head in E. cbn. intros ->. discriminate. }
  intros [|p|p] [|q|q] E; cbn [itoa Z.to_int] in E; try reflexivity; try discriminate E.
  - apply (P 0%N (Npos q)) in E. discriminate.
  - apply (P (Npos p) 0%N) in E. discriminate.
  - apply (P (Npos p) (Npos q)) in E. congruence.
  - apply Hn in E. contradiction E. reflexivity.
  - symmetry in E. apply Hn in E. contradiction E. reflexivity.
  - injection E as E. apply (P (Npos p) (Npos q)) in E. congruence.
Qed.
