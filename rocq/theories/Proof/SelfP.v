(** The cosine similarity of a vector with itself. *)
From Coq Require Import ZArith Lia List Bool.
From Verif.Base Require Import GoBase Float.
From Verif.Model Require Import Vector Annoy.
From Verif.Spec Require Import SizeSpec.
From Verif.Proof Require Import RoundP VectorP MonoP TruncP ExactP SizeP NearP AngleP ErrorP ErrorQ.
Import ListNotations.
Open Scope Z_scope.

Lemma root_error24 : forall A u, 2 ^ 200 <= A -> Z.abs (2 * u - root2 A) * 2 ^ 24 <= root2 A -> 0 <= u ->
  Z.abs (u * u - A) * 2 ^ 21 <= A.
Proof.
  intros A u HA H Hu.
  assert (S : Z.abs (root2 A * root2 A - 4 * A) <= 2 * root2 A + 1 /\ 2 ^ 100 <= root2 A).
  { unfold root2. pose proof (Z.sqrt_spec A ltac:(lia)) as [L1 L2].
    assert (K : 2 ^ 100 <= Z.sqrt A) by (change (2 ^ 100) with (Z.sqrt (2 ^ 200)); apply Z.sqrt_le_mono; exact HA).
    set (s := Z.sqrt A) in *. clearbody s. destruct (Z.eqb_spec (s * s) A) as [E|E].
    - split; [|lia]. replace (2 * s * (2 * s)) with (4 * (s * s)) by ring. lia.
    - split; [|lia]. replace ((2 * s + 1) * (2 * s + 1)) with (4 * (s * s) + 4 * s + 1) by ring.
      replace (Z.succ s * Z.succ s) with (s * s + 2 * s + 1) in L2 by ring. lia. }
  destruct S as [S1 S2]. set (q := root2 A) in *. clearbody q.
  assert (U : 2 * u <= 2 * q) by lia.
  assert (D : Z.abs ((2 * u) * (2 * u) - q * q) * 2 ^ 24 <= q * (3 * q)).
  { replace (2 * u * (2 * u) - q * q) with ((2 * u - q) * (2 * u + q)) by ring. rewrite Z.abs_mul, (Z.abs_eq (2 * u + q)) by lia.
    replace (Z.abs (2 * u - q) * (2 * u + q) * 2 ^ 24) with (Z.abs (2 * u - q) * 2 ^ 24 * (2 * u + q)) by ring.
    apply Z.mul_le_mono_nonneg; lia. }
  assert (Q : 2 ^ 100 * q <= q * q) by (apply Z.mul_le_mono_nonneg_r; lia).
  replace (2 * u * (2 * u)) with (4 * (u * u)) in D by ring. replace (q * (3 * q)) with (3 * (q * q)) in D by ring.
  set (uu := u * u) in *. set (qq := q * q) in *. clearbody uu qq. clear H U Hu. lia.
Qed.

Lemma units_shift : forall p q, 1 < p -> forall x E F, F <= E -> E <= emin p q -> unsigned p q x -> units F x = units E x * 2 ^ (E - F).
Proof.
  intros p q Hp [s|s| |[] m e] E F H1 H2 U; cbn [unsigned units] in *; try contradiction; [reflexivity|].
  destruct (bounded_spec p q Hp m e U) as (_ & B & _). rewrite <- Z.mul_assoc, <- Z.pow_add_r by lia. f_equal. f_equal. lia.
Qed.

Lemma unsigned_pos : forall x E, unsigned 24 128 x -> 0 < units E x -> exists m e, x = S754_finite false m e /\ bounded 24 128 m e = true.
Proof. intros [s|s| |[] m e] E U L; cbn [unsigned units] in *; try contradiction; [lia|]. eauto. Qed.

Lemma not_infinite : forall b E a r z, 0 < b -> E <= -149 -> rounds 24 128 b E a r -> unsigned 24 128 z -> a <= b * units E z ->
  unsigned 24 128 r.
Proof.
  intros b E a r z Hb HE R Z L. destruct (rounds_range 24 128 ltac:(lia) _ _ _ _ R) as [U|I]; [exact U|]. exfalso. subst r.
  pose proof (rounds_scale 24 128 1 E (units E z) z b Hb (rounds_itself 24 128 ltac:(lia) z E ltac:(rewrite lo32; lia) Z)) as RZ.
  rewrite Z.mul_1_r in RZ. pose proof (rounds_mono 24 128 ltac:(lia) b E _ _ _ _ Hb L R RZ) as M.
  destruct z as [s|s| |[] m e]; cbn [unsigned] in Z; try contradiction; discriminate.
Qed.

(** 1 - 2^-20. *)
Definition almost : float := S754_finite false 16777200 (-24).

Lemma self_quotient : forall s, unsigned 24 128 s -> 2 ^ 87 <= units (-149) s <= 2 ^ 212 ->
  in_range 24 128 (f32div s (f32mul (f32sqrt s) (f32sqrt s))) /\
  SFleb almost (f32div s (f32mul (f32sqrt s) (f32sqrt s))) = true.
Proof.
  intros s U [L1 L2].
  destruct (unsigned_pos s (-149) U ltac:(lia)) as (m & e & -> & B).
  destruct (bounded_spec 24 128 ltac:(lia) m e B) as (_ & BE & _). rewrite lo32 in BE.
  destruct (pow32 104 ltac:(lia)) as (z & ZU & ZV). change (2 ^ (104 + 149 + 23)) with (2 ^ 276) in ZV.
  unfold f32sqrt, f32mul, f32div. change prec32 with 24. change emax32 with 128.
  (* the root *)
  pose proof (rounds_sqrt 24 128 ltac:(lia) m e (-150) B ltac:(rewrite lo32; lia) ltac:(lia)) as R1.
  set (A := Zpos m * 2 ^ (e - 2 * -150)) in *.
  assert (AV : A = units (-149) (S754_finite false m e) * 2 ^ 151).
  { unfold A. cbn [units]. rewrite <- Z.mul_assoc, <- Z.pow_add_r by lia. f_equal. f_equal. lia. }
  assert (A1 : 2 ^ 238 <= A).
  { rewrite AV. change (2 ^ 238) with (2 ^ 87 * 2 ^ 151). apply Z.mul_le_mono_nonneg_r; [apply Z.pow_nonneg; lia|exact L1]. }
  assert (A2 : A <= 2 ^ 363).
  { rewrite AV. change (2 ^ 363) with (2 ^ 212 * 2 ^ 151). apply Z.mul_le_mono_nonneg_r; [apply Z.pow_nonneg; lia|exact L2]. }
  set (r := SFsqrt 24 128 (S754_finite false m e)) in *. clearbody r.
  assert (RU : unsigned 24 128 r).
  { apply (not_infinite 2 (-150) (root2 A) r z); auto; try lia.
    rewrite (units_shift 24 128 ltac:(lia) z (-149) (-150) ltac:(lia) ltac:(rewrite lo32; lia) ZU), ZV.
    apply Z.le_trans with (root2 (2 ^ 363)); [|vm_compute; discriminate].
    apply root2_mono. split; [eapply Z.le_trans; [|exact A1]; vm_compute; discriminate|exact A2]. }
  pose proof (rounds_error 24 128 ltac:(lia) 2 (-150) _ r ltac:(lia) R1 RU) as E1.
  assert (RB : 2 ^ 100 <= root2 A).
  { apply Z.le_trans with (root2 (2 ^ 238)); [vm_compute; discriminate|]. apply root2_mono. split; [vm_compute; discriminate|exact A1]. }
  assert (E1' : Z.abs (2 * units (-150) r - root2 A) * 2 ^ 24 <= root2 A).
  { apply E1; [|rewrite lo32; lia]. eapply Z.le_trans; [|exact RB]. vm_compute. discriminate. }
  pose proof (root_error24 A (units (-150) r) ltac:(eapply Z.le_trans; [|exact A1]; vm_compute; discriminate) E1' (units_nonneg _ _)) as Q1.
  clear E1 E1' RB R1 L1 L2.
  pose proof (units_nonneg r (-150)) as U0.
  assert (UP : 0 < units (-150) r).
  { destruct (Z.eq_dec (units (-150) r) 0) as [E0|]; [|lia]. rewrite E0 in Q1. exfalso.
    replace (0 * 0 - A) with (- A) in Q1 by lia. assert (0 < 2 ^ 238) by reflexivity. lia. }
  destruct (unsigned_pos r (-150) RU UP) as (m1 & e1 & -> & B1).
  destruct (bounded_spec 24 128 ltac:(lia) m1 e1 B1) as (_ & BE1 & _). rewrite lo32 in BE1.
  (* its square *)
  pose proof (rounds_mul 24 128 ltac:(lia) ltac:(lia) m1 e1 m1 e1 (-300) B1 B1 ltac:(rewrite lo32; lia) ltac:(lia)) as R2.
  assert (SQ : Zpos m1 * Zpos m1 * 2 ^ (e1 + e1 - -300) = units (-150) (S754_finite false m1 e1) * units (-150) (S754_finite false m1 e1)).
  { cbn [units]. replace (e1 + e1 - -300) with ((e1 - -150) + (e1 - -150)) by lia. rewrite Z.pow_add_r by lia. ring. }
  rewrite SQ in R2. set (u := units (-150) (S754_finite false m1 e1)) in *. clearbody u. clear SQ.
  set (p := SFmul 24 128 (S754_finite false m1 e1) (S754_finite false m1 e1)) in *. clearbody p.
  assert (UL : u * u <= 2 * A) by lia. assert (UG : A <= 2 * (u * u)) by lia.
  assert (PU : unsigned 24 128 p).
  { apply (not_infinite 1 (-300) (u * u) p z); auto; try lia.
    rewrite (units_shift 24 128 ltac:(lia) z (-149) (-300) ltac:(lia) ltac:(rewrite lo32; lia) ZU), ZV, Z.mul_1_l.
    apply Z.le_trans with (2 * 2 ^ 363); [|vm_compute; discriminate]. eapply Z.le_trans; [exact UL|]. apply Z.mul_le_mono_nonneg_l; [lia|exact A2]. }
  pose proof (rounds_error 24 128 ltac:(lia) 1 (-300) (u * u) p ltac:(lia) R2 PU) as E2. rewrite !Z.mul_1_l in E2.
  assert (E2' : Z.abs (units (-300) p - u * u) * 2 ^ 24 <= u * u).
  { apply E2; [|rewrite lo32; lia]. rewrite lo32. apply (Z.mul_le_mono_pos_l _ _ 2); [lia|]. eapply Z.le_trans; [|exact UG].
    eapply Z.le_trans; [|exact A1]. vm_compute. discriminate. }
  clear E2 R2. set (uu := u * u) in *. clearbody uu.
  assert (PA : Z.abs (units (-300) p - A) * 2 ^ 20 <= A) by (clear - Q1 E2' UL; lia).
  assert (PP : 0 < units (-300) p).
  { assert (0 < 2 ^ 238) by reflexivity. clear - PA H A1. lia. }
  destruct (unsigned_pos p (-300) PU PP) as (m2 & e2 & -> & B2).
  destruct (bounded_spec 24 128 ltac:(lia) m2 e2 B2) as (_ & BE2 & _). rewrite lo32 in BE2.
  (* the quotient *)
  pose proof (rounds_div 24 128 ltac:(lia) m e m2 e2 (-400) B B2 ltac:(rewrite lo32; lia) ltac:(lia)) as R3.
  split; [exact (rounds_range 24 128 ltac:(lia) _ _ _ _ R3)|].
  assert (AU : unsigned 24 128 almost) by reflexivity.
  pose proof (rounds_scale 24 128 1 (-400) (units (-400) almost) almost (Zpos m2) ltac:(lia)
    (rounds_itself 24 128 ltac:(lia) almost (-400) ltac:(rewrite lo32; lia) AU)) as RA.
  rewrite Z.mul_1_r in RA.
  refine (rounds_mono 24 128 ltac:(lia) (Zpos m2) (-400) _ _ _ _ ltac:(lia) _ RA R3).
  change (units (-400) almost) with ((2 ^ 20 - 1) * 2 ^ 380).
  apply (Z.mul_le_mono_pos_r _ _ (2 ^ (e2 + 300))); [apply Z.pow_pos_nonneg; lia|].
  replace (Zpos m * 2 ^ (e - e2 - -400) * 2 ^ (e2 + 300)) with (A * 2 ^ 400).
  2:{ unfold A. rewrite <- !Z.mul_assoc, <- !Z.pow_add_r by lia. f_equal. f_equal. lia. }
  replace (Zpos m2 * ((2 ^ 20 - 1) * 2 ^ 380) * 2 ^ (e2 + 300)) with (units (-300) (S754_finite false m2 e2) * (2 ^ 20 - 1) * 2 ^ 380).
  2:{ cbn [units]. replace (e2 - -300) with (e2 + 300) by lia. ring. }
  change (2 ^ 400) with (2 ^ 20 * 2 ^ 380). rewrite (Z.mul_assoc A). apply Z.mul_le_mono_nonneg_r; [apply Z.pow_nonneg; lia|].
  set (P := units (-300) (S754_finite false m2 e2)) in *. clearbody P. clear - PA PP A1.
  assert (0 < 2 ^ 238) by reflexivity. lia.
Qed.

Lemma dot_self_size : forall x, Forall (upto 20) x -> Z.of_nat (length x) < 2 ^ 23 -> Exists (from (-31)) x ->
  unsigned 24 128 (dot_loop fzero x x) /\ 2 ^ 87 <= units (-149) (dot_loop fzero x x) <= 2 ^ 212.
Proof.
  intros x X Hn F.
  assert (XS : Forall (signed 24 128) x) by (eapply Forall_impl; [|exact X]; apply upto_signed).
  destruct (dot_loop_upto 20 20 40 ltac:(lia) ltac:(lia) ltac:(lia) ltac:(lia) x x fzero 0 I ltac:(lia) ltac:(cbn; lia) X X) as [D1 D2].
  { change (20 + 20 - 40) with 0. rewrite Z.mul_1_r. change (2 ^ 24) with (2 * 2 ^ 23). lia. }
  assert (DU : unsigned 24 128 (dot_loop fzero x x)).
  { apply in_range_signed; auto. apply dot_self_range; auto. left. exact I. }
  destruct (dot_self_from (-31) x fzero ltac:(lia) XS I DU) as [_ D3]. specialize (D3 F).
  split; [exact DU|]. split; [exact D3|].
  apply Z.lt_le_incl. eapply Z.le_lt_trans; [exact D2|]. change (20 + 20 + 149) with 189. change (2 ^ 212) with (2 ^ 23 * 2 ^ 189).
  rewrite Z.add_0_l. apply Z.mul_lt_mono_pos_r; [reflexivity|exact Hn].
Qed.

Lemma cos_self : forall x s, cos_loop s s s x x = (dot_loop s x x, dot_loop s x x, dot_loop s x x).
Proof. induction x as [|a x IH]; intro s; [reflexivity|]. cbn [cos_loop dot_loop]. apply IH. Qed.

Theorem cosine_itself : forall x, Forall (upto 20) x -> Z.of_nat (length x) < 2 ^ 23 -> Exists (from (-31)) x ->
  SFleb (f64_of_f32 almost) (CosineSimilarity x x) = true /\ SFleb (CosineSimilarity x x) f64_one = true.
Proof.
  intros x X Hn F. destruct (dot_self_size x X Hn F) as [U B]. unfold CosineSimilarity. rewrite cos_self.
  destruct (self_quotient _ U B) as [R L]. set (s := dot_loop fzero x x) in *. clearbody s.
  assert (Z0 : feqb s fzero = false).
  { destruct s as [b|b| |[] m e]; cbn [unsigned units] in *; try contradiction; [|reflexivity]. exfalso. destruct B as [B _].
    assert (0 < 2 ^ 87) by reflexivity. lia. }
  rewrite Z0. cbn [orb]. set (c := f32div s (f32mul (f32sqrt s) (f32sqrt s))) in *. clearbody c.
  destruct R as [R| ->]; [|split; reflexivity].
  destruct (widen_units c R) as [W1 W2].
  assert (AU : unsigned 24 128 almost) by reflexivity. destruct (widen_units almost AU) as [W3 W4].
  assert (LL : SFleb (f64_of_f32 almost) (f64_of_f32 c) = true).
  { apply (fleb_units 53 1024 ltac:(lia) _ _ (-1074) ltac:(apply Z.le_refl) W3 W1). rewrite W2, W4.
    apply Z.mul_le_mono_nonneg_r; [apply Z.pow_nonneg; lia|].
    apply (fleb_units 24 128 ltac:(lia) _ _ (-149) ltac:(apply Z.le_refl) AU R). exact L. }
  set (d := f64_of_f32 c) in *. clearbody d.
  destruct (fgtb d f64_one) eqn:G; [split; reflexivity|].
  assert (M1 : fltb d f64_mone = false).
  { destruct d as [b|b| |[] m e]; cbn [unsigned] in W1; try contradiction; reflexivity. }
  rewrite M1. split; [exact LL|]. unfold fgtb in G.
  rewrite SFleb_ltb; [|destruct d as [b|b| |[] m e]; cbn [unsigned] in W1; try contradiction; reflexivity|reflexivity].
  unfold fltb in G. rewrite G. reflexivity.
Qed.
