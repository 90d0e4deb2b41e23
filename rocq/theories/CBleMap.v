(** The report map of the Bluetooth firmware in C: what a host is told about the reports.
    Models /repo/firmware/ch58x-ble-hid-keyboard-c/Profile/hidkbdservice.c 93-191 and
    Profile/include/hidkbdservice.h 33-35. *)
From Verif Require Import Base.
Local Open Scope N_scope.

Definition HID_RPT_ID_KEY_IN : u8 := 1.
Definition HID_RPT_ID_MOUSE_IN : u8 := 2.
Definition HID_RPT_ID_CONSUMER_IN : u8 := 3.
Definition hidReportMap : list u8 :=
  [0x05; 0x01; 0x09; 0x06; 0xA1; 0x01; 0x85; HID_RPT_ID_KEY_IN;
   0x05; 0x07; 0x19; 0xE0; 0x29; 0xE7; 0x15; 0x00; 0x25; 0x01; 0x75; 0x01; 0x95; 0x08; 0x81; 0x02;
   0x95; 0x01; 0x75; 0x08; 0x81; 0x01;
   0x95; 0x05; 0x75; 0x01; 0x05; 0x08; 0x19; 0x01; 0x29; 0x05; 0x91; 0x02; 0x95; 0x01; 0x75; 0x03; 0x91; 0x01;
   0x95; 0x06; 0x75; 0x08; 0x15; 0x00; 0x25; 0x65; 0x05; 0x07; 0x19; 0x00; 0x29; 0x65; 0x81; 0x00; 0xC0;
   0x05; 0x01; 0x09; 0x02; 0xA1; 0x01; 0x85; HID_RPT_ID_MOUSE_IN; 0x09; 0x01; 0xA1; 0x00;
   0x05; 0x09; 0x19; 0x01; 0x29; 0x03; 0x15; 0x00; 0x25; 0x01; 0x75; 0x01; 0x95; 0x03; 0x81; 0x02;
   0x75; 0x05; 0x95; 0x01; 0x81; 0x03;
   0x05; 0x01; 0x09; 0x30; 0x09; 0x31; 0x09; 0x38; 0x15; 0x81; 0x25; 0x7F; 0x75; 0x08; 0x95; 0x03; 0x81; 0x06; 0xC0;
   0x05; 0x0C; 0x0A; 0x38; 0x02; 0x15; 0x81; 0x25; 0x7F; 0x75; 0x08; 0x95; 0x01; 0x81; 0x06; 0xC0;
   0x05; 0x0C; 0x09; 0x01; 0xA1; 0x01; 0x85; HID_RPT_ID_CONSUMER_IN; 0x19; 0x00; 0x2A; 0xFF; 0x03; 0x15; 0x00; 0x26; 0xFF; 0x03;
   0x75; 0x10; 0x95; 0x02; 0x81; 0x00; 0xC0].
