(** The field order 2^255 - 19 and the group order of Ed25519 are prime. *)
From Coq Require Import ZArith Znumtheory Lia Bool.
From Verif Require Import Primes.
Local Open Scope Z_scope.

Lemma prime_8574133 : prime 8574133.
Proof. apply (small_prime 2930); [lia|vm_compute; reflexivity]. Qed.
Lemma prime_127 : prime 127.
Proof. apply (small_prime 13); [lia|vm_compute; reflexivity]. Qed.
Definition red_1919519569386763 : Z -> Z :=
  fmod 51 22691169009438746036412193 1919519569386763.
Lemma red_1919519569386763_spec x : red_1919519569386763 x = x mod 1919519569386763.
Proof. apply fmod_spec. Qed.
Lemma prime_1919519569386763 : prime 1919519569386763.
Proof.
  apply (pocklington (red_1919519569386763) 1919519569386763 8574133 2 1290547218147893
    127 2 1870148777187772);
    [exact red_1919519569386763_spec|exact prime_8574133|exact prime_127|lia|lia|vm_compute; reflexivity|vm_compute; reflexivity].
Qed.
Lemma prime_75707 : prime 75707.
Proof. apply (small_prime 277); [lia|vm_compute; reflexivity]. Qed.
Definition red_75445702479781427272750846543864801 : Z -> Z :=
  fmod 116 785804197467625559888519651158433347455983616 75445702479781427272750846543864801.
Lemma red_75445702479781427272750846543864801_spec x : red_75445702479781427272750846543864801 x = x mod 75445702479781427272750846543864801.
Proof. apply fmod_spec. Qed.
Lemma prime_75445702479781427272750846543864801 : prime 75445702479781427272750846543864801.
Proof.
  apply (pocklington (red_75445702479781427272750846543864801) 75445702479781427272750846543864801 1919519569386763 2 74602835786463724888147869570305675
    75707 2 8986369574106813140303762220009459);
    [exact red_75445702479781427272750846543864801_spec|exact prime_1919519569386763|exact prime_75707|lia|lia|vm_compute; reflexivity|vm_compute; reflexivity].
Qed.
Lemma prime_430751 : prime 430751.
Proof. apply (small_prime 658); [lia|vm_compute; reflexivity]. Qed.
Lemma prime_4153 : prime 4153.
Proof. apply (small_prime 66); [lia|vm_compute; reflexivity]. Qed.
Definition red_31757755568855353 : Z -> Z :=
  fmod 55 351107072887745802006863884 31757755568855353.
Lemma red_31757755568855353_spec x : red_31757755568855353 x = x mod 31757755568855353.
Proof. apply fmod_spec. Qed.
Lemma prime_31757755568855353 : prime 31757755568855353.
Proof.
  apply (pocklington (red_31757755568855353) 31757755568855353 430751 2 15419847897348699
    4153 2 25117532289192573);
    [exact red_31757755568855353_spec|exact prime_430751|exact prime_4153|lia|lia|vm_compute; reflexivity|vm_compute; reflexivity].
Qed.
Definition red_74058212732561358302231226437062788676166966415465897661863160754340907 : Z -> Z :=
  fmod 236 1414407607039394659361133555067685837421933692064841092277226854755659373122909338 74058212732561358302231226437062788676166966415465897661863160754340907.
Lemma red_74058212732561358302231226437062788676166966415465897661863160754340907_spec x : red_74058212732561358302231226437062788676166966415465897661863160754340907 x = x mod 74058212732561358302231226437062788676166966415465897661863160754340907.
Proof. apply fmod_spec. Qed.
Lemma prime_74058212732561358302231226437062788676166966415465897661863160754340907 : prime 74058212732561358302231226437062788676166966415465897661863160754340907.
Proof.
  apply (pocklington (red_74058212732561358302231226437062788676166966415465897661863160754340907) 74058212732561358302231226437062788676166966415465897661863160754340907 75445702479781427272750846543864801 2 70463328703800545008217672123162676565183935400628861884889913886334520
    31757755568855353 2 18232248056023258384404751131439975669387062239511397558448549501188471);
    [exact red_74058212732561358302231226437062788676166966415465897661863160754340907_spec|exact prime_75445702479781427272750846543864801|exact prime_31757755568855353|lia|lia|vm_compute; reflexivity|vm_compute; reflexivity].
Qed.
Definition red_p (x : Z) : Z :=
  let h := Z.shiftr x 255 in let y := x - Z.shiftl h 255 + 19 * h in
  let g := Z.shiftr y 255 in let z := y - Z.shiftl g 255 + 19 * g in
  if (0 <=? z) && (z <? 57896044618658097711785492504343953926634992332820282019728792003956564819949) then z else x mod 57896044618658097711785492504343953926634992332820282019728792003956564819949.
Lemma red_p_spec x : red_p x = x mod 57896044618658097711785492504343953926634992332820282019728792003956564819949.
Proof.
  unfold red_p. set (h := Z.shiftr x 255). set (y := x - Z.shiftl h 255 + 19 * h). set (g := Z.shiftr y 255).
  cbv zeta. set (z := y - _ + _).
  destruct (0 <=? z) eqn:A; [|reflexivity]. destruct (z <? 57896044618658097711785492504343953926634992332820282019728792003956564819949) eqn:C; [|reflexivity]. cbn [andb].
  apply Z.leb_le in A. apply Z.ltb_lt in C. apply (Z.mod_unique x _ (h + g)); [lia|].
  unfold z, y. rewrite !Z.shiftl_mul_pow2 by lia. change (2 ^ 255) with 57896044618658097711785492504343953926634992332820282019728792003956564819968. lia.
Qed.
Lemma prime_57896044618658097711785492504343953926634992332820282019728792003956564819949 : prime 57896044618658097711785492504343953926634992332820282019728792003956564819949.
Proof. apply (pocklington_one (red_p) 57896044618658097711785492504343953926634992332820282019728792003956564819949 74058212732561358302231226437062788676166966415465897661863160754340907 2
  55540832096118778044507775605005710249233119951144946814680141076505643269084); [exact red_p_spec|exact prime_74058212732561358302231226437062788676166966415465897661863160754340907|lia|vm_compute; reflexivity]. Qed.
Lemma prime_1224481 : prime 1224481.
Proof. apply (small_prime 1108); [lia|vm_compute; reflexivity]. Qed.
Lemma prime_531581 : prime 531581.
Proof. apply (small_prime 731); [lia|vm_compute; reflexivity]. Qed.
Definition red_1257559732178653 : Z -> Z :=
  fmod 51 34635446612481383810444968 1257559732178653.
Lemma red_1257559732178653_spec x : red_1257559732178653 x = x mod 1257559732178653.
Proof. apply fmod_spec. Qed.
Lemma prime_1257559732178653 : prime 1257559732178653.
Proof.
  apply (pocklington (red_1257559732178653) 1257559732178653 1224481 2 790900187493841
    531581 2 212927577457398);
    [exact red_1257559732178653_spec|exact prime_1224481|exact prime_531581|lia|lia|vm_compute; reflexivity|vm_compute; reflexivity].
Qed.
Definition red_4434155615661930479 : Z -> Z :=
  fmod 62 41200111250288462282734719350 4434155615661930479.
Lemma red_4434155615661930479_spec x : red_4434155615661930479 x = x mod 4434155615661930479.
Proof. apply fmod_spec. Qed.
Lemma prime_4434155615661930479 : prime 4434155615661930479.
Proof. apply (pocklington_one (red_4434155615661930479) 4434155615661930479 1257559732178653 2
  1010501025739283171); [exact red_4434155615661930479_spec|exact prime_1257559732178653|lia|vm_compute; reflexivity]. Qed.
Definition red_172054593956031949258510691 : Z -> Z :=
  fmod 88 4781925665238877442404923949996636670 172054593956031949258510691.
Lemma red_172054593956031949258510691_spec x : red_172054593956031949258510691 x = x mod 172054593956031949258510691.
Proof. apply fmod_spec. Qed.
Lemma prime_172054593956031949258510691 : prime 172054593956031949258510691.
Proof. apply (pocklington_one (red_172054593956031949258510691) 172054593956031949258510691 4434155615661930479 2
  154275350521713489305385904); [exact red_172054593956031949258510691_spec|exact prime_4434155615661930479|lia|vm_compute; reflexivity]. Qed.
Definition red_19757330305831588566944191468367130476339 : Z -> Z :=
  fmod 134 206205590006584341580527846261156266136632750475563 19757330305831588566944191468367130476339.
Lemma red_19757330305831588566944191468367130476339_spec x : red_19757330305831588566944191468367130476339 x = x mod 19757330305831588566944191468367130476339.
Proof. apply fmod_spec. Qed.
Lemma prime_19757330305831588566944191468367130476339 : prime 19757330305831588566944191468367130476339.
Proof. apply (pocklington_one (red_19757330305831588566944191468367130476339) 19757330305831588566944191468367130476339 172054593956031949258510691 2
  16371654433361644093796961727196399386194); [exact red_19757330305831588566944191468367130476339_spec|exact prime_172054593956031949258510691|lia|vm_compute; reflexivity]. Qed.
Definition red_276602624281642239937218680557139826668747 : Z -> Z :=
  fmod 138 3770616502977542246043937760204000295069842376806184 276602624281642239937218680557139826668747.
Lemma red_276602624281642239937218680557139826668747_spec x : red_276602624281642239937218680557139826668747 x = x mod 276602624281642239937218680557139826668747.
Proof. apply fmod_spec. Qed.
Lemma prime_276602624281642239937218680557139826668747 : prime 276602624281642239937218680557139826668747.
Proof. apply (pocklington_one (red_276602624281642239937218680557139826668747) 276602624281642239937218680557139826668747 19757330305831588566944191468367130476339 2
  94074944912245044309966580483695483989395); [exact red_276602624281642239937218680557139826668747_spec|exact prime_19757330305831588566944191468367130476339|lia|vm_compute; reflexivity]. Qed.
Definition red_7237005577332262213973186563042994240857116359379907606001950938285454250989 : Z -> Z :=
  fmod 253 248661618204893321077691124073410420049274856618121429382223716156099174448521584353421 7237005577332262213973186563042994240857116359379907606001950938285454250989.
Lemma red_7237005577332262213973186563042994240857116359379907606001950938285454250989_spec x : red_7237005577332262213973186563042994240857116359379907606001950938285454250989 x = x mod 7237005577332262213973186563042994240857116359379907606001950938285454250989.
Proof. apply fmod_spec. Qed.
Lemma prime_7237005577332262213973186563042994240857116359379907606001950938285454250989 : prime 7237005577332262213973186563042994240857116359379907606001950938285454250989.
Proof. apply (pocklington_one (red_7237005577332262213973186563042994240857116359379907606001950938285454250989) 7237005577332262213973186563042994240857116359379907606001950938285454250989 276602624281642239937218680557139826668747 2
  2233364593245673852815932892735013076939656528578070433728021143254617821614); [exact red_7237005577332262213973186563042994240857116359379907606001950938285454250989_spec|exact prime_276602624281642239937218680557139826668747|lia|vm_compute; reflexivity]. Qed.
