(** What is expected of the estimate of zero bytes, said without the code. *)
From Verif Require Import Base.

(** The pages are numbered from the one that holds [ua]; [flag] says which are resident as far as
    that is known, which it is of the first [N].  The addresses of the object known to be resident, in order. *)
Definition resident_addresses (N : Z) (flag : Z -> bool) (p ua size : Z) : list Z :=
  filter (fun a => (a / p - ua / p <? N) && flag (a / p - ua / p)) (zseq ua (Z.to_nat size)).

(** How the share of zeroes computed with doubles behaves: it is within the bytes it is a share
    of, it is none of them when there is no zero and all of them when there is nothing else. *)
Definition a_share (share : Z -> Z -> Z -> Z) : Prop :=
  (forall z n b, 0 <= z <= n -> 0 < n -> 0 <= b -> 0 <= share z n b <= b) /\
  (forall n b, 0 < n -> 0 <= b -> share 0 n b = 0) /\
  (forall n b, 0 < n -> 0 <= b -> share n n b = b) /\
  (forall z z' n b, 0 <= z <= z' -> z' <= n -> 0 < n -> 0 <= b -> share z n b <= share z' n b).
