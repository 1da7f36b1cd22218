(** What a host expects of the HCI front end, in terms of the packets it sends and
    of what comes back. *)
From Verif Require Import Prelude HciTables Hci.
Open Scope N_scope.

(** ** Command packets *)

Definition opcode (p : list N) : N := nth 0 p 0 + 256 * nth 1 p 0.
Definition parameters (p : list N) : list N := firstn (N.to_nat (nth 2 p 0)) (skipn 3 p).

(** The packet for a command. *)
Definition packet (op : N) (b : list N) : list N := op mod 256 :: op / 256 :: lenN b :: b.

(** A byte string is a command packet: a header of three bytes, and at least as
    many bytes as the header says. *)
Definition well_framed (p : list N) : Prop :=
  3 + nth 2 p 0 <= lenN p.

(** Nothing follows the parameters, if the packet compiler minds. *)
Definition sound (exact : bool) (p : list N) : Prop :=
  well_framed p /\ (exact = true -> lenN p = 3 + nth 2 p 0).

(** The controller neither aborts nor reads outside of an array. *)
Definition alive (W : Type) (r : result W) : Prop := exists s' l, r = Done W s' l.

(** ** Answers *)

(** The command answers among the effects: operation code and number of commands
    the host may send next. *)
Fixpoint answers (l : list effect) : list (N * N) :=
  match l with
  | [] => []
  | Event (CommandComplete n op _) :: l' => (op, n) :: answers l'
  | Event (CommandStatus _ n op) :: l' => (op, n) :: answers l'
  | _ :: l' => answers l'
  end.

(** The invalid packet handler did not run. *)
Fixpoint no_complaint (l : list effect) : Prop :=
  match l with
  | [] => True
  | InvalidPacket _ :: _ => False
  | _ :: l' => no_complaint l'
  end.

(** Commands whose answer is left to the link manager. *)
Definition for_link_manager : list N := [
  0x040b (* link key request reply *);
  0x040c (* link key request negative reply *);
  0x040d (* pin code request reply *);
  0x040e (* pin code request negative reply *);
  0x0411 (* authentication requested *);
  0x0413 (* set connection encryption *);
  0x042b (* io capability request reply *);
  0x042c (* user confirmation request reply *);
  0x042d (* user confirmation request negative reply *);
  0x042e (* user passkey request reply *);
  0x042f (* user passkey request negative reply *);
  0x0430 (* remote oob data request reply *);
  0x0433 (* remote oob data request negative reply *);
  0x0434 (* io capability request negative reply *);
  0x0445 (* remote oob extended data request reply *);
  0x0c60 (* send keypress notification *)
].

(** Commands whose answer is left to the link layer. *)
Definition for_link_layer : list N := [
  0x2062 (* le set cig parameters *);
  0x2063 (* le set cig parameters test *);
  0x2064 (* le create cis *);
  0x2065 (* le remove cig *);
  0x2066 (* le accept cis request *);
  0x2067 (* le reject cis request *);
  0x2068 (* le create big *);
  0x206a (* le terminate big *);
  0x206e (* le setup iso data path *);
  0x206f (* le remove iso data path *)
].

Definition DISCONNECT : N := 0x0406.
(** The operation code of the CSR vendor commands, answered with vendor events. *)
Definition CSR_COMMAND : N := 0xfc00.

(** Disconnect of a connected isochronous stream (handles from 0xe00 to 0xeff) is
    left to the link layer too. *)
Definition ends_stream (p : list N) : Prop :=
  opcode p = DISCONNECT /\ (opcode (parameters p) mod 4096) / 256 = 0xe.

(** A request that the front end answers itself. *)
Definition own_request (p : list N) : Prop :=
  ~ In (opcode p) for_link_manager /\ ~ In (opcode p) for_link_layer /\
  opcode p <> CSR_COMMAND /\ ~ ends_stream p.

(** The answers a host waits for: one for each command, in order, with one
    credit. *)
Fixpoint expected (h : list (input * list effect)) : list (N * N) :=
  match h with
  | [] => []
  | (Command p, _) :: h' => (opcode p, 1) :: expected h'
  | _ :: h' => expected h'
  end.

Definition all_effects (h : list (input * list effect)) : list effect := flat_map snd h.

(** Write Loopback Mode with local loopback. *)
Definition enters_loopback (p : list N) : Prop :=
  opcode p = 0x1802 /\ nth 0 (parameters p) 0 = 1.

(** The packets received carry no surprise: commands are answered by the front
    end, are accepted as well formed and do not enter local loopback. *)
Definition ordinary (e : input * list effect) : Prop :=
  match fst e with
  | Command p => own_request p /\ ~ enters_loopback p /\ no_complaint (snd e)
  | _ => True
  end.

(** ** Supported commands *)

(** Vol 4, Part E, 6.27 of the Core Specification: operation code, octet and bit
    of the commands in the Supported_Commands mask (octets 0 to 47, except the
    Channel Sounding commands), written down independently of the source. *)
Definition core_positions : list (N * N * N) := [
  (0x0401, 0, 0); (0x0402, 0, 1); (0x0403, 0, 2); (0x0404, 0, 3); (0x0405, 0, 4); (0x0406, 0, 5); (0x0407, 0, 6); (0x0408, 0, 7);
  (0x0409, 1, 0); (0x040a, 1, 1); (0x040b, 1, 2); (0x040c, 1, 3); (0x040d, 1, 4); (0x040e, 1, 5); (0x040f, 1, 6); (0x0411, 1, 7);
  (0x0413, 2, 0); (0x0415, 2, 1); (0x0417, 2, 2); (0x0419, 2, 3); (0x041a, 2, 4); (0x041b, 2, 5); (0x041c, 2, 6); (0x041d, 2, 7);
  (0x041f, 3, 0); (0x0420, 3, 1);
  (0x0801, 4, 1); (0x0803, 4, 2); (0x0804, 4, 3); (0x0807, 4, 6); (0x0809, 4, 7);
  (0x080b, 5, 0); (0x080c, 5, 1); (0x080d, 5, 2); (0x080e, 5, 3); (0x080f, 5, 4); (0x0810, 5, 5); (0x0c01, 5, 6); (0x0c03, 5, 7);
  (0x0c05, 6, 0); (0x0c08, 6, 1); (0x0c09, 6, 2); (0x0c0a, 6, 3); (0x0c0d, 6, 5); (0x0c11, 6, 6); (0x0c12, 6, 7);
  (0x0c13, 7, 0); (0x0c14, 7, 1); (0x0c15, 7, 2); (0x0c16, 7, 3); (0x0c17, 7, 4); (0x0c18, 7, 5); (0x0c19, 7, 6); (0x0c1a, 7, 7);
  (0x0c1b, 8, 0); (0x0c1c, 8, 1); (0x0c1d, 8, 2); (0x0c1e, 8, 3); (0x0c1f, 8, 4); (0x0c20, 8, 5);
  (0x0c23, 9, 0); (0x0c24, 9, 1); (0x0c25, 9, 2); (0x0c26, 9, 3); (0x0c27, 9, 4); (0x0c28, 9, 5); (0x0c29, 9, 6); (0x0c2a, 9, 7);
  (0x0c2b, 10, 0); (0x0c2c, 10, 1); (0x0c2d, 10, 2); (0x0c2e, 10, 3); (0x0c2f, 10, 4); (0x0c31, 10, 5); (0x0c33, 10, 6); (0x0c35, 10, 7);
  (0x0c36, 11, 0); (0x0c37, 11, 1); (0x0c38, 11, 2); (0x0c39, 11, 3); (0x0c3a, 11, 4);
  (0x0c3f, 12, 1); (0x0c42, 12, 4); (0x0c43, 12, 5); (0x0c44, 12, 6); (0x0c45, 12, 7);
  (0x0c46, 13, 0); (0x0c47, 13, 1); (0x0c48, 13, 2); (0x0c49, 13, 3);
  (0x1001, 14, 3); (0x1003, 14, 5); (0x1004, 14, 6); (0x1005, 14, 7);
  (0x1009, 15, 1); (0x1401, 15, 2); (0x1402, 15, 3); (0x1403, 15, 4); (0x1405, 15, 5); (0x1406, 15, 6); (0x1407, 15, 7);
  (0x1801, 16, 0); (0x1802, 16, 1); (0x1803, 16, 2); (0x0428, 16, 3); (0x0429, 16, 4); (0x042a, 16, 5);
  (0x0c51, 17, 0); (0x0c52, 17, 1); (0x0c53, 17, 2); (0x0811, 17, 4); (0x0c55, 17, 5); (0x0c56, 17, 6); (0x0c57, 17, 7);
  (0x0c58, 18, 0); (0x0c59, 18, 1); (0x0c5a, 18, 2); (0x0c5b, 18, 3); (0x042b, 18, 7);
  (0x042c, 19, 0); (0x042d, 19, 1); (0x042e, 19, 2); (0x042f, 19, 3); (0x0430, 19, 4); (0x1804, 19, 5); (0x0c5f, 19, 6); (0x0433, 19, 7);
  (0x0c60, 20, 2); (0x0434, 20, 3); (0x1408, 20, 4);
  (0x0c63, 22, 2);
  (0x0c68, 24, 0); (0x0c6c, 24, 5); (0x0c6d, 24, 6);
  (0x2001, 25, 0); (0x2002, 25, 1); (0x2003, 25, 2); (0x2005, 25, 4); (0x2006, 25, 5); (0x2007, 25, 6); (0x2008, 25, 7);
  (0x2009, 26, 0); (0x200a, 26, 1); (0x200b, 26, 2); (0x200c, 26, 3); (0x200d, 26, 4); (0x200e, 26, 5); (0x200f, 26, 6); (0x2010, 26, 7);
  (0x2011, 27, 0); (0x2012, 27, 1); (0x2013, 27, 2); (0x2014, 27, 3); (0x2015, 27, 4); (0x2016, 27, 5); (0x2017, 27, 6); (0x2018, 27, 7);
  (0x2019, 28, 0); (0x201a, 28, 1); (0x201b, 28, 2); (0x201c, 28, 3); (0x201d, 28, 4); (0x201e, 28, 5); (0x201f, 28, 6);
  (0x043d, 29, 3); (0x043e, 29, 4); (0x100b, 29, 5); (0x0c6e, 29, 6); (0x0c6f, 29, 7);
  (0x0c70, 30, 0); (0x0c71, 30, 1); (0x0c72, 30, 2); (0x140c, 30, 3); (0x0c73, 30, 4); (0x140d, 30, 5); (0x043f, 30, 6); (0x0440, 30, 7);
  (0x0441, 31, 0); (0x0442, 31, 1); (0x0443, 31, 2); (0x0444, 31, 3); (0x0c74, 31, 4); (0x0c75, 31, 5); (0x0c76, 31, 6); (0x0c77, 31, 7);
  (0x0c78, 32, 0); (0x0445, 32, 1); (0x0c79, 32, 2); (0x0c7a, 32, 3); (0x0c7b, 32, 4); (0x0c7c, 32, 5); (0x0c7d, 32, 6); (0x180a, 32, 7);
  (0x0c7e, 33, 0); (0x0c7f, 33, 1); (0x0c80, 33, 2); (0x0c81, 33, 3); (0x2020, 33, 4); (0x2021, 33, 5); (0x2022, 33, 6); (0x2023, 33, 7);
  (0x2024, 34, 0); (0x2025, 34, 1); (0x2026, 34, 2); (0x2027, 34, 3); (0x2028, 34, 4); (0x2029, 34, 5); (0x202a, 34, 6); (0x202b, 34, 7);
  (0x202c, 35, 0); (0x202d, 35, 1); (0x202e, 35, 2); (0x202f, 35, 3); (0x2030, 35, 4); (0x2031, 35, 5); (0x2032, 35, 6); (0x2033, 35, 7);
  (0x2034, 36, 0); (0x2035, 36, 1); (0x2036, 36, 2); (0x2037, 36, 3); (0x2038, 36, 4); (0x2039, 36, 5); (0x203a, 36, 6); (0x203b, 36, 7);
  (0x203c, 37, 0); (0x203d, 37, 1); (0x203e, 37, 2); (0x203f, 37, 3); (0x2040, 37, 4); (0x2041, 37, 5); (0x2042, 37, 6); (0x2043, 37, 7);
  (0x2044, 38, 0); (0x2045, 38, 1); (0x2046, 38, 2); (0x2047, 38, 3); (0x2048, 38, 4); (0x2049, 38, 5); (0x204a, 38, 6); (0x204b, 38, 7);
  (0x204c, 39, 0); (0x204d, 39, 1); (0x204e, 39, 2); (0x204f, 39, 3); (0x2050, 39, 4); (0x2051, 39, 5); (0x2052, 39, 6); (0x2053, 39, 7);
  (0x2054, 40, 0); (0x2055, 40, 1); (0x2056, 40, 2); (0x2057, 40, 3); (0x2058, 40, 4); (0x2059, 40, 5); (0x205a, 40, 6); (0x205b, 40, 7);
  (0x205c, 41, 0); (0x205d, 41, 1); (0x205e, 41, 2); (0x100c, 41, 3); (0x205f, 41, 4); (0x2060, 41, 5); (0x2061, 41, 6); (0x2062, 41, 7);
  (0x2063, 42, 0); (0x2064, 42, 1); (0x2065, 42, 2); (0x2066, 42, 3); (0x2067, 42, 4); (0x2068, 42, 5); (0x2069, 42, 6); (0x206a, 42, 7);
  (0x206b, 43, 0); (0x206c, 43, 1); (0x206d, 43, 2); (0x206e, 43, 3); (0x206f, 43, 4); (0x2070, 43, 5); (0x2071, 43, 6); (0x2072, 43, 7);
  (0x2073, 44, 0); (0x2074, 44, 1); (0x2075, 44, 2); (0x2076, 44, 3); (0x2077, 44, 4); (0x2078, 44, 5); (0x2079, 44, 6); (0x207a, 44, 7);
  (0x207b, 45, 0); (0x0c82, 45, 1); (0x100d, 45, 2); (0x100e, 45, 3); (0x100f, 45, 4); (0x0c83, 45, 5); (0x207c, 45, 6); (0x0c84, 45, 7);
  (0x207d, 46, 0); (0x207e, 46, 1); (0x207f, 46, 2); (0x2080, 46, 3); (0x2081, 46, 4); (0x2082, 46, 5); (0x2083, 46, 6); (0x2084, 46, 7);
  (0x2085, 47, 0); (0x2086, 47, 1); (0x2087, 47, 2); (0x2088, 47, 3); (0x2098, 47, 5); (0x2099, 47, 6); (0x209a, 47, 7)
].

(** The bit of a command in the mask returned to the host. *)
Definition shown (mask : list N) (octet bit : N) : bool := N.testbit (nth (N.to_nat octet) mask 0) bit.

(** The controller is past the two states where no command is executed. *)
Definition operational {W} (c : config) (s : state W) : Prop :=
  mode _ s <> 1 /\ (error_before_reset c = false \/ was_reset _ s = true).

(** Commands that the default properties advertise although nothing implements
    them. *)
Definition advertised_in_vain : list N := [
  0x0420 (* read lmp handle *);
  0x0c08 (* flush *);
  0x0c27 (* read automatic flush timeout *);
  0x0c28 (* write automatic flush timeout *);
  0x0c2b (* read hold mode activity *);
  0x0c2c (* write hold mode activity *);
  0x0c31 (* set controller to host flow control *);
  0x0c35 (* host number of completed packets *);
  0x0c36 (* read link supervision timeout *);
  0x0c3f (* set afh host channel classification *);
  0x0c48 (* read afh channel assessment mode *);
  0x0c49 (* write afh channel assessment mode *);
  0x0c51 (* read extended inquiry response *);
  0x0c55 (* read simple pairing mode *);
  0x0c59 (* write inquiry transmit power level *);
  0x0c6c (* read le host support *);
  0x0c79 (* read secure connections host support *);
  0x0c7b (* read authenticated payload timeout *);
  0x0c7c (* write authenticated payload timeout *);
  0x1406 (* read afh channel map *);
  0x1803 (* enable implementation under test mode *);
  0x1804 (* write simple pairing debug mode *);
  0x180a (* write secure connections test mode *);
  0x2014 (* le set host channel classification *);
  0x2015 (* le read channel map *);
  0x201d (* le receiver test v1 *);
  0x201e (* le transmitter test v1 *);
  0x201f (* le test end *);
  0x204c (* le read rf path compensation power *);
  0x204d (* le write rf path compensation power *);
  0x207b (* le transmitter test v4 *);
  0x2095 (* le cs test *);
  0x2096 (* le cs test end *)
].

(** ** Commands that cannot be executed safely *)

Definition SET_EVENT_FILTER : N := 0x0c05.
Definition READ_LOCAL_EXTENDED_FEATURES : N := 0x1004.
Definition INTEL_READ : N := 0xfc8c.
Definition INTEL_WRITE : N := 0xfc8b.
Definition LE_APCF : N := 0xfd57.

(** The records of an Intel write: a length byte of at least two, then that many
    bytes. *)
Inductive records : list N -> Prop :=
| records_nil : records []
| records_cons r b : 2 <= lenN r -> records b -> records (lenN r :: r ++ b).

Definition field (b : list N) (i : nat) : N := nth i b 0 + 256 * nth (S i) b 0.

(** A CSR access that is carried out: at least eleven bytes, channel byte 0xc2,
    and the value, whose size in words is given by the header (five words
    included, modulo 2^15), is there. *)
Definition csr_value (b : list N) (size : N) : Prop :=
  nth 0 b 0 = 0xc2 /\ 11 <= lenN b /\ size < 65536 /\
  (exists k, size + 10 + 65536 * k = 2 * field b 3 + 131072) /\ 11 + size <= lenN b.

(** An access to a persistent store key with its value size. *)
Definition csr_key (b : list N) (key size : N) : Prop :=
  (exists n, csr_value b n /\ 6 <= n) /\ field b 7 = 0x7003 /\ field b 11 = key /\
  size < 65536 /\ (exists k, size + 65536 * k = 2 * field b 13) /\ 17 + size <= lenN b.

(** The values too small for what is read or written. *)
Definition csr_too_small (b : list N) : Prop :=
  (field b 1 = 0 /\ field b 7 = 0x2819 /\ exists n, csr_value b n /\ n < 2) \/
  (field b 1 = 0 /\ exists key n, csr_key b key n /\
     ((key = 0x00da \/ key = 0x00db) /\ n < 1 \/ key = 0x010d /\ n < 2)) \/
  (field b 1 <> 0 /\ exists n, csr_key b 0x00ef n /\ n < 8).

(** Commands, with their parameters, that take the controller down although they
    have a handler. *)
Definition deadly (exact : bool) (c : config) (op : N) (b : list N) : Prop :=
  (op = SET_EVENT_FILTER /\ nth 0 b 0 <> 0) \/
  (op = READ_LOCAL_EXTENDED_FEATURES /\ 3 <= nth 0 b 0 /\ (exact = true -> lenN b = 1)) \/
  (op = INTEL_READ /\ lenN b <> 2) \/
  (op = INTEL_WRITE /\ ~ records b) \/
  (op = CSR_COMMAND /\ has_csr c = true /\ (lenN b < 3 \/ csr_too_small b)) \/
  (op = LE_APCF /\ has_apcf c = true /\
   exists size, In (firstn 2 b, size) [([1; 0], 18); ([1; 1], 3); ([2; 0], 10); ([2; 1], 10); ([2; 2], 3)] /\
   (lenN b < size \/ exact = true /\ lenN b <> size)).

(** ** Settings *)

(** The command that writes a setting and the one that reads it, and the size of
    the value when it is fixed (Core Specification, Vol 4, Part E, 7.2, 7.3, 7.8). *)
Definition writer (x : setting) : N :=
  match x with
  | PageTimeout => 0x0c18 | AcceptTimeout => 0x0c16 | ClassOfDevice => 0x0c24 | VoiceSetting => 0x0c26
  | AuthenticationEnable => 0x0c20 | ScanEnable => 0x0c1a | LocalName => 0x0c13 | InquiryCodes => 0x0c3a
  | LinkPolicy => 0x080f | FlowControl => 0x0c2f | DataLength => 0x2024
  end.

Definition reader (x : setting) : N :=
  match x with
  | PageTimeout => 0x0c17 | AcceptTimeout => 0x0c15 | ClassOfDevice => 0x0c23 | VoiceSetting => 0x0c25
  | AuthenticationEnable => 0x0c1f | ScanEnable => 0x0c19 | LocalName => 0x0c14 | InquiryCodes => 0x0c39
  | LinkPolicy => 0x080e | FlowControl => 0x0c2e | DataLength => 0x2023
  end.

Definition size_of (x : setting) : N :=
  match x with
  | PageTimeout | AcceptTimeout | VoiceSetting | LinkPolicy => 2
  | ClassOfDevice => 3
  | AuthenticationEnable | ScanEnable | FlowControl => 1
  | LocalName => 248
  | InquiryCodes => 0
  | DataLength => 4
  end.

(** The inquiry access codes 0x9e8b00 to 0x9e8b3f, low byte first. *)
Definition inquiry_code (l : list N) : Prop := exists n, n < 64 /\ l = [n; 0x8b; 0x9e].

(** A value in the range of the setting. *)
Definition in_range (c : config) (x : setting) (b : list N) : Prop :=
  forallb is_byte b = true /\
  match x with
  | InquiryCodes => exists l, Forall inquiry_code l /\ lenN l <= codes c /\ b = lenN l :: concat l
  | VoiceSetting => lenN b = 2 /\ opcode b < 1024
  | ScanEnable => exists n, n <= 3 /\ b = [n]
  | FlowControl => b = [0] \/ b = [1]
  | _ => lenN b = size_of x
  end.

(** The values that may be refused: link policies other than role switch, hold and
    sniff; sizes and times outside of the limits of LE Write Suggested Default Data
    Length (7.8.34). *)
Definition allowed (x : setting) (b : list N) : Prop :=
  match x with
  | LinkPolicy => opcode b <= 7
  | DataLength => 0x1b <= opcode b <= 0xfb /\ 0x148 <= field b 2 <= 0x4290
  | _ => True
  end.

(** Settings whose written values are lost: the command that reads, and what it
    always returns. *)
Definition deaf : list (N * list N) := [
  (0x0c1b, [0x00; 0x10; 0x12; 0x00]) (* read page scan activity *);
  (0x0c1d, [0x00; 0x10; 0x12; 0x00]) (* read inquiry scan activity *);
  (0x0c42, [0]) (* read inquiry scan type *);
  (0x0c44, [0]) (* read inquiry mode *);
  (0x0c46, [0]) (* read page scan type *)
].

(** The value after Reset. *)
Definition default (x : setting) : list N :=
  match x with
  | PageTimeout => [0x00; 0x20]
  | AcceptTimeout => [0xa0; 0x1f]
  | VoiceSetting => [0x60; 0x00]
  | InquiryCodes => [1; 0x33; 0x8b; 0x9e]
  | DataLength => [0x1b; 0x00; 0x48; 0x01]
  | _ => repeat 0 (N.to_nat (size_of x))
  end.

(** A fresh controller has no inquiry access code and the name of the device. *)
Definition fresh (c : config) (x : setting) : list N :=
  match x with
  | LocalName => name c
  | InquiryCodes => [0]
  | _ => default x
  end.

(** A command complete event with success and nothing else. *)
Definition succeeded (p : list N) (l : list effect) : bool :=
  existsb (fun e => match e with
                    | Event (CommandComplete _ op [0]) => op =? opcode p
                    | _ => false end) l.

(** The value of a setting after a history, judged from the commands and their
    answers: the parameters of the last write answered with success since the
    last reset. *)
Fixpoint last_value (x : setting) (h : list (input * list effect)) (v : list N) : list N :=
  match h with
  | [] => v
  | (Command p, l) :: h' =>
      if succeeded p l then
        if opcode p =? writer x then last_value x h' (parameters p)
        else if opcode p =? 0x0c03 then last_value x h' (default x)
        else last_value x h' v
      else last_value x h' v
  | _ :: h' => last_value x h' v
  end.

(** Every write of the setting answered with success carries a value in range. *)
Definition writes_in_range (c : config) (x : setting) (h : list (input * list effect)) : Prop :=
  forall p l, In (Command p, l) h -> opcode p = writer x -> succeeded p l = true -> in_range c x (parameters p).

(** Unknown HCI Command is not the answer. *)
Definition no_refusal (op : N) (l : list effect) : Prop := ~ In (Event (CommandComplete 1 op [1])) l.

(** The same for the loopback mode, which is one byte. *)
Fixpoint last_loopback (h : list (input * list effect)) (v : N) : N :=
  match h with
  | [] => v
  | (Command p, l) :: h' =>
      if succeeded p l then
        if opcode p =? 0x1802 then last_loopback h' (nth 0 (parameters p) 0)
        else if opcode p =? 0x0c03 then last_loopback h' 0
        else last_loopback h' v
      else last_loopback h' v
  | _ :: h' => last_loopback h' v
  end.

(** ** Loopback *)

(** The commands executed in local loopback (Vol 4, Part E, 7.6.2): Reset, Set
    Controller To Host Flow Control, Host Buffer Size, Host Number Of Completed
    Packets, Read Buffer Size, Read and Write Loopback Mode. *)
Definition never_looped : list N := [0x0c03; 0x0c31; 0x0c33; 0x0c35; 0x1005; 0x1801; 0x1802].

(** A data packet: a two byte handle and flags, a size, the data. *)
Definition acl_frame (p : list N) : Prop :=
  forallb is_byte p = true /\ 4 <= lenN p /\ lenN p = 4 + nth 2 p 0 + 256 * nth 3 p 0.

Definition sco_frame (p : list N) : Prop :=
  forallb is_byte p = true /\ 3 <= lenN p /\ lenN p = 3 + nth 2 p 0.

Definition handle_of (p : list N) : N := opcode p mod 4096.

(** The reserved bits of a synchronous data packet are zero. *)
Definition no_reserved (p : list N) : Prop := opcode p < 16384.
