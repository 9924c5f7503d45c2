(** C79: varints and multihash bytes. *)
From Verif Require Import Base Codec VarintSpec VarintFacts.

(** C79. Every number has exactly one varint, and [varint] writes it. *)
Theorem C79_varint : forall n bs, bs = varint n <-> varint_form bs /\ groups bs = n.
Proof. intros n bs. split; [intros ->; exact (varint_spec n)|intros [F G]; exact (varint_unique F G)]. Qed.
Print Assumptions C79_varint.
(** Multihash bytes, even followed by anything, determine the hash code, the digest and what follows. *)
Theorem C79_multihash : forall a b r s, multihash_bytes a ++ r = multihash_bytes b ++ s -> a = b /\ r = s.
Proof. exact multihash_prefix. Qed.
Print Assumptions C79_multihash.
Example C79_example :
  varint 300 = [xac; x02] /\ varint_form [xac; x02] /\ groups [xac; x02] = 300%N /\ ~ varint_form [xac; x82; x00] /\
  multihash_bytes (300%N, [x61]) ++ [x62] = [xac; x02; x01; x61] ++ [x62].
Proof.
  split; [reflexivity|]. split; [exists [xac], x02; split; [reflexivity|]; split; [constructor; [discriminate|constructor]|]; split; [reflexivity|right; discriminate]|]. split; [reflexivity|]. split; [|reflexivity].
  intros (i & l & E & _ & _ & Z). assert (H : l = x00 /\ i = [xac; x82]).
  { change [xac; x82; x00] with ([xac; x82] ++ [x00]) in E. apply app_inj_tail in E as [<- <-]. auto. }
  destruct H as [-> ->]. destruct Z as [Z|Z]; [discriminate|apply Z; reflexivity].
Qed.
