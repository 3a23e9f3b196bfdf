(** What a checkpoint option means: HEIGHT:ID, a decimal number of a uint64 and an even number of hexadecimal digits. *)
From Verif Require Import GoBase PeerConn_Model.
Import Ascii.

(** Decimal digits and their value, most significant first *)
Definition decimal (c : ascii) (d : N) : Prop := (d <= 9)%N /\ N_of_ascii c = (48 + d)%N.
Inductive decimal_number : list ascii -> N -> Prop :=
  | dn_one c d : decimal c d -> decimal_number [c] d
  | dn_more s n c d : decimal_number s n -> decimal c d -> decimal_number (s ++ [c]) (10 * n + d).

(** Hexadecimal digits of either case; two of them are one byte *)
Definition hexadecimal (c : ascii) (d : N) : Prop :=
  (d <= 9 /\ N_of_ascii c = 48 + d)%N \/ (10 <= d <= 15 /\ (N_of_ascii c = 97 + (d - 10) \/ N_of_ascii c = 65 + (d - 10)))%N.
Inductive hex_text : list ascii -> list ascii -> Prop :=
  | ht_nil : hex_text [] []
  | ht_byte p q a b x s t : hexadecimal p a -> hexadecimal q b -> N_of_ascii x = (16 * a + b)%N -> hex_text s t -> hex_text (p :: q :: s) (x :: t).

(** The option denotes the checkpoint *)
Definition face_value (opt : string) (cp : checkpoint) : Prop :=
  exists h i id, Strings.String.list_ascii_of_string opt = h ++ ":"%char :: i /\
    decimal_number h (cp_height cp) /\ (cp_height cp < two64)%N /\
    hex_text i (Strings.String.list_ascii_of_string id) /\ cp_id cp = Some id.
Definition well_formed (opt : string) : Prop := exists cp, face_value opt cp.
