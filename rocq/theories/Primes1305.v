(** 2^130 - 5, the modulus of Poly1305, is prime. *)
From Coq Require Import ZArith Znumtheory Lia Bool.
From Verif Require Import Primes.
Local Open Scope Z_scope.

Lemma prime_221101 : prime 221101.
Proof. apply (small_prime 472); [lia|vm_compute; reflexivity]. Qed.
Lemma prime_37003 : prime 37003.
Proof. apply (small_prime 194); [lia|vm_compute; reflexivity]. Qed.
Definition red_4024685905107147541 : Z -> Z :=
  fmod 62 45391791800334104805744050176 4024685905107147541.
Lemma red_4024685905107147541_spec x : red_4024685905107147541 x = x mod 4024685905107147541.
Proof. apply fmod_spec. Qed.
Lemma prime_4024685905107147541 : prime 4024685905107147541.
Proof.
  apply (pocklington (red_4024685905107147541) 4024685905107147541 221101 2 1467464467400074184
    37003 2 1096848965921730071);
    [exact red_4024685905107147541_spec|exact prime_221101|exact prime_37003|lia|lia|vm_compute; reflexivity|vm_compute; reflexivity].
Qed.
Definition red_897064739519922787230182993783 : Z -> Z :=
  fmod 100 15387398573895867308310096753857205895235 897064739519922787230182993783.
Lemma red_897064739519922787230182993783_spec x : red_897064739519922787230182993783 x = x mod 897064739519922787230182993783.
Proof. apply fmod_spec. Qed.
Lemma prime_897064739519922787230182993783 : prime 897064739519922787230182993783.
Proof. apply (pocklington_one (red_897064739519922787230182993783) 897064739519922787230182993783 4024685905107147541 2
  779171088784275230984760184720); [exact red_897064739519922787230182993783_spec|exact prime_4024685905107147541|lia|vm_compute; reflexivity]. Qed.
Definition red_1361129467683753853853498429727072845819 : Z -> Z :=
  fmod 130 11692013098647223345629478661730264157290410016768 1361129467683753853853498429727072845819.
Lemma red_1361129467683753853853498429727072845819_spec x : red_1361129467683753853853498429727072845819 x = x mod 1361129467683753853853498429727072845819.
Proof. apply fmod_spec. Qed.
Lemma prime_1361129467683753853853498429727072845819 : prime 1361129467683753853853498429727072845819.
Proof. apply (pocklington_one (red_1361129467683753853853498429727072845819) 1361129467683753853853498429727072845819 897064739519922787230182993783 2
  15340630709746432533628977078564628162); [exact red_1361129467683753853853498429727072845819_spec|exact prime_897064739519922787230182993783|lia|vm_compute; reflexivity]. Qed.
