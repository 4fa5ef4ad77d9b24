(** Certificates that the size of the field and the order of the base point of
    Curve25519 and Ed25519 are prime. *)
From Coq Require Import Znumtheory.
From Verif Require Export Prime.
Local Open Scope Z_scope.

Lemma prime_991 : prime 991.
Proof. apply (trial_prime _ 31). vm_compute. reflexivity. Qed.
Lemma prime_103 : prime 103.
Proof. apply (trial_prime _ 10). vm_compute. reflexivity. Qed.
Lemma prime_8574133 : prime 8574133.
Proof.
  apply (cert2_prime _ 991 103 84
    1014251
    3531099); [exact prime_991|exact prime_103|].
  vm_compute. reflexivity.
Qed.
Lemma prime_127 : prime 127.
Proof. apply (trial_prime _ 11). vm_compute. reflexivity. Qed.
Lemma prime_51_bits : prime 1919519569386763.
Proof.
  apply (cert2_prime _ 8574133 127 1762782
    1290547218147893
    1870148777187772); [exact prime_8574133|exact prime_127|].
  vm_compute. reflexivity.
Qed.
Lemma prime_569003 : prime 569003.
Proof. apply (trial_prime _ 754). vm_compute. reflexivity. Qed.
Lemma prime_2773320623 : prime 2773320623.
Proof.
  apply (cert1_prime _ 569003 4874
    2440407146); [exact prime_569003|].
  vm_compute. reflexivity.
Qed.
Lemma prime_72106336199 : prime 72106336199.
Proof.
  apply (cert1_prime _ 2773320623 26
    8149528284); [exact prime_2773320623|].
  vm_compute. reflexivity.
Qed.
Lemma prime_116_bits : prime 75445702479781427272750846543864801.
Proof.
  apply (cert2_prime _ 1919519569386763 72106336199 545090400
    74602835786463724888147869570305675
    55965016733432503242248684386325671); [exact prime_51_bits|exact prime_72106336199|].
  vm_compute. reflexivity.
Qed.
Lemma prime_430751 : prime 430751.
Proof. apply (trial_prime _ 656). vm_compute. reflexivity. Qed.
Lemma prime_4153 : prime 4153.
Proof. apply (trial_prime _ 64). vm_compute. reflexivity. Qed.
Lemma prime_55_bits : prime 31757755568855353.
Proof.
  apply (cert2_prime _ 430751 4153 17752584
    15419847897348699
    25117532289192573); [exact prime_430751|exact prime_4153|].
  vm_compute. reflexivity.
Qed.
Lemma prime_236_bits : prime 74058212732561358302231226437062788676166966415465897661863160754340907.
Proof.
  apply (cert2_prime _ 75445702479781427272750846543864801 31757755568855353 30909282119527343802
    70463328703800545008217672123162676565183935400628861884889913886334520
    18232248056023258384404751131439975669387062239511397558448549501188471); [exact prime_116_bits|exact prime_55_bits|].
  vm_compute. reflexivity.
Qed.
Lemma prime_p : prime 57896044618658097711785492504343953926634992332820282019728792003956564819949.
Proof.
  apply (cert1_prime _ 74058212732561358302231226437062788676166966415465897661863160754340907 781764
    55540832096118778044507775605005710249233119951144946814680141076505643269084); [exact prime_236_bits|].
  vm_compute. reflexivity.
Qed.
Lemma prime_2551 : prime 2551.
Proof. apply (trial_prime _ 50). vm_compute. reflexivity. Qed.
Lemma prime_1224481 : prime 1224481.
Proof.
  apply (cert1_prime _ 2551 480
    1100631); [exact prime_2551|].
  vm_compute. reflexivity.
Qed.
Lemma prime_531581 : prime 531581.
Proof. apply (trial_prime _ 729). vm_compute. reflexivity. Qed.
Lemma prime_51_bitsb : prime 1257559732178653.
Proof.
  apply (cert2_prime _ 1224481 531581 1932
    790900187493841
    212927577457398); [exact prime_1224481|exact prime_531581|].
  vm_compute. reflexivity.
Qed.
Lemma prime_62_bits : prime 4434155615661930479.
Proof.
  apply (cert1_prime _ 1257559732178653 3526
    1010501025739283171); [exact prime_51_bitsb|].
  vm_compute. reflexivity.
Qed.
Lemma prime_88_bits : prime 172054593956031949258510691.
Proof.
  apply (cert1_prime _ 4434155615661930479 38802110
    154275350521713489305385904); [exact prime_62_bits|].
  vm_compute. reflexivity.
Qed.
Lemma prime_134_bits : prime 19757330305831588566944191468367130476339.
Proof.
  apply (cert1_prime _ 172054593956031949258510691 114831751082918
    16371654433361644093796961727196399386194); [exact prime_88_bits|].
  vm_compute. reflexivity.
Qed.
Lemma prime_138_bits : prime 276602624281642239937218680557139826668747.
Proof.
  apply (cert1_prime _ 19757330305831588566944191468367130476339 14
    94074944912245044309966580483695483989395); [exact prime_134_bits|].
  vm_compute. reflexivity.
Qed.
Lemma prime_l : prime 7237005577332262213973186563042994240857116359379907606001950938285454250989.
Proof.
  apply (cert1_prime _ 276602624281642239937218680557139826668747 26163907866482859529727157400808004
    2233364593245673852815932892735013076939656528578070433728021143254617821614); [exact prime_138_bits|].
  vm_compute. reflexivity.
Qed.
