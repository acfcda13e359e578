(** The files of the crate's own test suite, byte for byte. *)
From Verif Require Import Base.

(** src/tests/read/locator/empty.zip *)
Definition zip_empty : bytes := [
  x50; x4b; x05; x06; x00; x00; x00; x00; x00; x00; x00; x00; x00; x00; x00; x00; x00; x00; x00; x00; x00; x00].

(** src/tests/read/zip64/zip64.zip *)
Definition zip64_zip : bytes := [
  x50; x4b; x03; x04; x2d; x00; x00; x00; x00; x00; xd2; x6d; x2b; x56; xdd; xdd; x14; x7d; xff; xff; xff; xff; xff; xff; xff; xff; x01; x00; x14;
  x00; x2d; x01; x00; x10; x00; x0d; x00; x00; x00; x00; x00; x00; x00; x0d; x00; x00; x00; x00; x00; x00; x00; x48; x65; x6c; x6c; x6f; x20; x57;
  x6f; x72; x6c; x64; x21; x0a; x50; x4b; x01; x02; x1e; x03; x2d; x00; x00; x00; x00; x00; xd2; x6d; x2b; x56; xdd; xdd; x14; x7d; x0d; x00; x00;
  x00; x0d; x00; x00; x00; x01; x00; x00; x00; x00; x00; x00; x00; x00; x00; x00; x00; xb0; x11; x00; x00; x00; x00; x2d; x50; x4b; x06; x06; x2c;
  x00; x00; x00; x00; x00; x00; x00; x1e; x03; x2d; x00; x00; x00; x00; x00; x00; x00; x00; x00; x01; x00; x00; x00; x00; x00; x00; x00; x01; x00;
  x00; x00; x00; x00; x00; x00; x2f; x00; x00; x00; x00; x00; x00; x00; x40; x00; x00; x00; x00; x00; x00; x00; x50; x4b; x06; x07; x00; x00; x00;
  x00; x6f; x00; x00; x00; x00; x00; x00; x00; x01; x00; x00; x00; x50; x4b; x05; x06; x00; x00; x00; x00; x01; x00; x01; x00; x2f; x00; x00; x00;
  x40; x00; x00; x00; x00; x00].

(** tests/test_inputs/sample_data_utf8_extra.zip *)
Definition utf8_extra_zip : bytes := [
  x50; x4b; x03; x04; x14; x00; x00; x00; x00; x00; xa8; x72; x0b; x57; x00; x00; x00; x00; x00; x00; x00; x00; x00; x00; x00; x00; x08; x00; x13;
  x00; xd6; xd0; xce; xc4; x2e; x74; x78; x74; x75; x70; x0f; x00; x01; x32; xcc; x7f; x9a; xe4; xb8; xad; xe6; x96; x87; x2e; x74; x78; x74; x50;
  x4b; x01; x02; x14; x00; x14; x00; x00; x00; x00; x00; xa8; x72; x0b; x57; x00; x00; x00; x00; x00; x00; x00; x00; x00; x00; x00; x00; x08; x00;
  x37; x00; x00; x00; x00; x00; x00; x00; x20; x00; x00; x00; x00; x00; x00; x00; xd6; xd0; xce; xc4; x2e; x74; x78; x74; x0a; x00; x20; x00; x00;
  x00; x00; x00; x01; x00; x18; x00; xaa; x59; xed; x07; x1c; xcc; xd9; x01; xaa; x59; xed; x07; x1c; xcc; xd9; x01; xaa; x59; xed; x07; x1c; xcc;
  xd9; x01; x75; x70; x0f; x00; x01; x32; xcc; x7f; x9a; xe4; xb8; xad; xe6; x96; x87; x2e; x74; x78; x74; x50; x4b; x05; x06; x00; x00; x00; x00;
  x01; x00; x01; x00; x6d; x00; x00; x00; x39; x00; x00; x00; x04; x00; xb2; xe2; xca; xd4].

(** tests/test_inputs/sample_data.store.zip *)
Definition store_zip : bytes := [
  x50; x4b; x03; x04; x14; x00; x00; x00; x00; x00; xc0; xa8; x30; x56; x00; x00; x00; x00; x00; x00; x00; x00; x00; x00; x00; x00; x0c; x00; x00;
  x00; x73; x61; x6d; x70; x6c; x65; x5f; x64; x61; x74; x61; x2f; x50; x4b; x03; x04; x14; x00; x00; x00; x00; x00; xc0; xa8; x30; x56; x00; x00;
  x00; x00; x00; x00; x00; x00; x00; x00; x00; x00; x14; x00; x00; x00; x73; x61; x6d; x70; x6c; x65; x5f; x64; x61; x74; x61; x2f; x6e; x75; x6d;
  x65; x72; x69; x63; x2f; x50; x4b; x03; x04; x0a; x00; x00; x00; x00; x00; x27; xa7; x30; x56; x94; x09; x28; xf0; x57; x00; x00; x00; x57; x00;
  x00; x00; x1f; x00; x00; x00; x73; x61; x6d; x70; x6c; x65; x5f; x64; x61; x74; x61; x2f; x6e; x75; x6d; x65; x72; x69; x63; x2f; x66; x6f; x72;
  x77; x61; x72; x64; x2e; x74; x78; x74; x31; x2c; x32; x2c; x33; x2c; x34; x2c; x35; x2c; x36; x2c; x37; x2c; x38; x2c; x39; x2c; x31; x30; x2c;
  x31; x31; x2c; x31; x32; x2c; x31; x33; x2c; x31; x34; x2c; x31; x35; x2c; x31; x36; x2c; x31; x37; x2c; x31; x38; x2c; x31; x39; x2c; x32; x30;
  x2c; x32; x31; x2c; x32; x32; x2c; x32; x33; x2c; x32; x34; x2c; x32; x35; x2c; x32; x36; x2c; x32; x37; x2c; x32; x38; x2c; x32; x39; x2c; x33;
  x30; x2c; x33; x31; x2c; x33; x32; x0a; x50; x4b; x03; x04; x0a; x00; x00; x00; x00; x00; x31; xa7; x30; x56; x9f; x5b; xbb; x80; x57; x00; x00;
  x00; x57; x00; x00; x00; x1f; x00; x00; x00; x73; x61; x6d; x70; x6c; x65; x5f; x64; x61; x74; x61; x2f; x6e; x75; x6d; x65; x72; x69; x63; x2f;
  x72; x65; x76; x65; x72; x73; x65; x2e; x74; x78; x74; x33; x32; x2c; x33; x31; x2c; x33; x30; x2c; x32; x39; x2c; x32; x38; x2c; x32; x37; x2c;
  x32; x36; x2c; x32; x35; x2c; x32; x34; x2c; x32; x33; x2c; x32; x32; x2c; x32; x31; x2c; x32; x30; x2c; x31; x39; x2c; x31; x38; x2c; x31; x37;
  x2c; x31; x36; x2c; x31; x35; x2c; x31; x34; x2c; x31; x33; x2c; x31; x32; x2c; x31; x31; x2c; x31; x30; x2c; x39; x2c; x38; x2c; x37; x2c; x36;
  x2c; x35; x2c; x34; x2c; x33; x2c; x32; x2c; x31; x0a; x50; x4b; x03; x04; x14; x00; x00; x00; x00; x00; xc0; xa8; x30; x56; x00; x00; x00; x00;
  x00; x00; x00; x00; x00; x00; x00; x00; x12; x00; x00; x00; x73; x61; x6d; x70; x6c; x65; x5f; x64; x61; x74; x61; x2f; x61; x6c; x70; x68; x61;
  x2f; x50; x4b; x03; x04; x0a; x00; x00; x00; x00; x00; x6c; xa8; x30; x56; x32; x3e; x05; xfb; xa0; x01; x00; x00; xa0; x01; x00; x00; x23; x00;
  x00; x00; x73; x61; x6d; x70; x6c; x65; x5f; x64; x61; x74; x61; x2f; x61; x6c; x70; x68; x61; x2f; x66; x72; x6f; x6e; x74; x5f; x74; x6f; x5f;
  x62; x61; x63; x6b; x2e; x74; x78; x74; x41; x2c; x61; x2c; x42; x2c; x62; x2c; x43; x2c; x63; x2c; x44; x2c; x64; x2c; x45; x2c; x65; x2c; x46;
  x2c; x66; x2c; x47; x2c; x67; x2c; x48; x2c; x68; x2c; x49; x2c; x49; x2c; x4a; x2c; x6a; x2c; x4b; x2c; x6b; x2c; x4c; x2c; x6c; x2c; x4d; x2c;
  x6d; x2c; x4e; x2c; x6e; x2c; x4f; x2c; x6f; x2c; x50; x2c; x70; x2c; x51; x2c; x71; x2c; x52; x2c; x72; x2c; x53; x2c; x73; x2c; x54; x2c; x74;
  x2c; x55; x2c; x75; x2c; x56; x2c; x76; x2c; x57; x2c; x77; x2c; x58; x2c; x78; x2c; x59; x2c; x79; x2c; x5a; x2c; x7a; x0a; x41; x2c; x61; x2c;
  x42; x2c; x62; x2c; x43; x2c; x63; x2c; x44; x2c; x64; x2c; x45; x2c; x65; x2c; x46; x2c; x66; x2c; x47; x2c; x67; x2c; x48; x2c; x68; x2c; x49;
  x2c; x49; x2c; x4a; x2c; x6a; x2c; x4b; x2c; x6b; x2c; x4c; x2c; x6c; x2c; x4d; x2c; x6d; x2c; x4e; x2c; x6e; x2c; x4f; x2c; x6f; x2c; x50; x2c;
  x70; x2c; x51; x2c; x71; x2c; x52; x2c; x72; x2c; x53; x2c; x73; x2c; x54; x2c; x74; x2c; x55; x2c; x75; x2c; x56; x2c; x76; x2c; x57; x2c; x77;
  x2c; x58; x2c; x78; x2c; x59; x2c; x79; x2c; x5a; x2c; x7a; x0a; x41; x2c; x61; x2c; x42; x2c; x62; x2c; x43; x2c; x63; x2c; x44; x2c; x64; x2c;
  x45; x2c; x65; x2c; x46; x2c; x66; x2c; x47; x2c; x67; x2c; x48; x2c; x68; x2c; x49; x2c; x49; x2c; x4a; x2c; x6a; x2c; x4b; x2c; x6b; x2c; x4c;
  x2c; x6c; x2c; x4d; x2c; x6d; x2c; x4e; x2c; x6e; x2c; x4f; x2c; x6f; x2c; x50; x2c; x70; x2c; x51; x2c; x71; x2c; x52; x2c; x72; x2c; x53; x2c;
  x73; x2c; x54; x2c; x74; x2c; x55; x2c; x75; x2c; x56; x2c; x76; x2c; x57; x2c; x77; x2c; x58; x2c; x78; x2c; x59; x2c; x79; x2c; x5a; x2c; x7a;
  x0a; x41; x2c; x61; x2c; x42; x2c; x62; x2c; x43; x2c; x63; x2c; x44; x2c; x64; x2c; x45; x2c; x65; x2c; x46; x2c; x66; x2c; x47; x2c; x67; x2c;
  x48; x2c; x68; x2c; x49; x2c; x49; x2c; x4a; x2c; x6a; x2c; x4b; x2c; x6b; x2c; x4c; x2c; x6c; x2c; x4d; x2c; x6d; x2c; x4e; x2c; x6e; x2c; x4f;
  x2c; x6f; x2c; x50; x2c; x70; x2c; x51; x2c; x71; x2c; x52; x2c; x72; x2c; x53; x2c; x73; x2c; x54; x2c; x74; x2c; x55; x2c; x75; x2c; x56; x2c;
  x76; x2c; x57; x2c; x77; x2c; x58; x2c; x78; x2c; x59; x2c; x79; x2c; x5a; x2c; x7a; x0a; x50; x4b; x03; x04; x0a; x00; x00; x00; x00; x00; x3d;
  xa8; x30; x56; x46; xf0; x6d; x55; xa0; x01; x00; x00; xa0; x01; x00; x00; x23; x00; x00; x00; x73; x61; x6d; x70; x6c; x65; x5f; x64; x61; x74;
  x61; x2f; x61; x6c; x70; x68; x61; x2f; x62; x61; x63; x6b; x5f; x74; x6f; x5f; x66; x72; x6f; x6e; x74; x2e; x74; x78; x74; x5a; x2c; x7a; x2c;
  x59; x2c; x79; x2c; x58; x2c; x78; x2c; x57; x2c; x77; x2c; x56; x2c; x76; x2c; x55; x2c; x75; x2c; x54; x2c; x74; x2c; x53; x2c; x73; x2c; x52;
  x2c; x72; x2c; x51; x2c; x71; x2c; x50; x2c; x70; x2c; x4f; x2c; x6f; x2c; x4e; x2c; x6e; x2c; x4d; x2c; x6d; x2c; x4c; x2c; x6c; x2c; x4b; x2c;
  x6b; x2c; x4a; x2c; x6a; x2c; x49; x2c; x49; x2c; x48; x2c; x68; x2c; x47; x2c; x67; x2c; x46; x2c; x66; x2c; x45; x2c; x65; x2c; x44; x2c; x64;
  x2c; x43; x2c; x63; x2c; x42; x2c; x62; x2c; x41; x2c; x61; x0a; x5a; x2c; x7a; x2c; x59; x2c; x79; x2c; x58; x2c; x78; x2c; x57; x2c; x77; x2c;
  x56; x2c; x76; x2c; x55; x2c; x75; x2c; x54; x2c; x74; x2c; x53; x2c; x73; x2c; x52; x2c; x72; x2c; x51; x2c; x71; x2c; x50; x2c; x70; x2c; x4f;
  x2c; x6f; x2c; x4e; x2c; x6e; x2c; x4d; x2c; x6d; x2c; x4c; x2c; x6c; x2c; x4b; x2c; x6b; x2c; x4a; x2c; x6a; x2c; x49; x2c; x49; x2c; x48; x2c;
  x68; x2c; x47; x2c; x67; x2c; x46; x2c; x66; x2c; x45; x2c; x65; x2c; x44; x2c; x64; x2c; x43; x2c; x63; x2c; x42; x2c; x62; x2c; x41; x2c; x61;
  x0a; x5a; x2c; x7a; x2c; x59; x2c; x79; x2c; x58; x2c; x78; x2c; x57; x2c; x77; x2c; x56; x2c; x76; x2c; x55; x2c; x75; x2c; x54; x2c; x74; x2c;
  x53; x2c; x73; x2c; x52; x2c; x72; x2c; x51; x2c; x71; x2c; x50; x2c; x70; x2c; x4f; x2c; x6f; x2c; x4e; x2c; x6e; x2c; x4d; x2c; x6d; x2c; x4c;
  x2c; x6c; x2c; x4b; x2c; x6b; x2c; x4a; x2c; x6a; x2c; x49; x2c; x49; x2c; x48; x2c; x68; x2c; x47; x2c; x67; x2c; x46; x2c; x66; x2c; x45; x2c;
  x65; x2c; x44; x2c; x64; x2c; x43; x2c; x63; x2c; x42; x2c; x62; x2c; x41; x2c; x61; x0a; x5a; x2c; x7a; x2c; x59; x2c; x79; x2c; x58; x2c; x78;
  x2c; x57; x2c; x77; x2c; x56; x2c; x76; x2c; x55; x2c; x75; x2c; x54; x2c; x74; x2c; x53; x2c; x73; x2c; x52; x2c; x72; x2c; x51; x2c; x71; x2c;
  x50; x2c; x70; x2c; x4f; x2c; x6f; x2c; x4e; x2c; x6e; x2c; x4d; x2c; x6d; x2c; x4c; x2c; x6c; x2c; x4b; x2c; x6b; x2c; x4a; x2c; x6a; x2c; x49;
  x2c; x49; x2c; x48; x2c; x68; x2c; x47; x2c; x67; x2c; x46; x2c; x66; x2c; x45; x2c; x65; x2c; x44; x2c; x64; x2c; x43; x2c; x63; x2c; x42; x2c;
  x62; x2c; x41; x2c; x61; x0a; x50; x4b; x01; x02; x3f; x03; x14; x00; x00; x00; x00; x00; xc0; xa8; x30; x56; x00; x00; x00; x00; x00; x00; x00;
  x00; x00; x00; x00; x00; x0c; x00; x00; x00; x00; x00; x00; x00; x00; x00; x00; x00; xed; x41; x00; x00; x00; x00; x73; x61; x6d; x70; x6c; x65;
  x5f; x64; x61; x74; x61; x2f; x50; x4b; x01; x02; x3f; x03; x14; x00; x00; x00; x00; x00; xc0; xa8; x30; x56; x00; x00; x00; x00; x00; x00; x00;
  x00; x00; x00; x00; x00; x14; x00; x00; x00; x00; x00; x00; x00; x00; x00; x00; x00; xed; x41; x2a; x00; x00; x00; x73; x61; x6d; x70; x6c; x65;
  x5f; x64; x61; x74; x61; x2f; x6e; x75; x6d; x65; x72; x69; x63; x2f; x50; x4b; x01; x02; x3f; x03; x0a; x00; x00; x00; x00; x00; x27; xa7; x30;
  x56; x94; x09; x28; xf0; x57; x00; x00; x00; x57; x00; x00; x00; x1f; x00; x00; x00; x00; x00; x00; x00; x00; x00; x00; x00; xa4; x81; x5c; x00;
  x00; x00; x73; x61; x6d; x70; x6c; x65; x5f; x64; x61; x74; x61; x2f; x6e; x75; x6d; x65; x72; x69; x63; x2f; x66; x6f; x72; x77; x61; x72; x64;
  x2e; x74; x78; x74; x50; x4b; x01; x02; x3f; x03; x0a; x00; x00; x00; x00; x00; x31; xa7; x30; x56; x9f; x5b; xbb; x80; x57; x00; x00; x00; x57;
  x00; x00; x00; x1f; x00; x00; x00; x00; x00; x00; x00; x00; x00; x00; x00; xa4; x81; xf0; x00; x00; x00; x73; x61; x6d; x70; x6c; x65; x5f; x64;
  x61; x74; x61; x2f; x6e; x75; x6d; x65; x72; x69; x63; x2f; x72; x65; x76; x65; x72; x73; x65; x2e; x74; x78; x74; x50; x4b; x01; x02; x3f; x03;
  x14; x00; x00; x00; x00; x00; xc0; xa8; x30; x56; x00; x00; x00; x00; x00; x00; x00; x00; x00; x00; x00; x00; x12; x00; x00; x00; x00; x00; x00;
  x00; x00; x00; x00; x00; xed; x41; x84; x01; x00; x00; x73; x61; x6d; x70; x6c; x65; x5f; x64; x61; x74; x61; x2f; x61; x6c; x70; x68; x61; x2f;
  x50; x4b; x01; x02; x3f; x03; x0a; x00; x00; x00; x00; x00; x6c; xa8; x30; x56; x32; x3e; x05; xfb; xa0; x01; x00; x00; xa0; x01; x00; x00; x23;
  x00; x00; x00; x00; x00; x00; x00; x00; x00; x00; x00; xa4; x81; xb4; x01; x00; x00; x73; x61; x6d; x70; x6c; x65; x5f; x64; x61; x74; x61; x2f;
  x61; x6c; x70; x68; x61; x2f; x66; x72; x6f; x6e; x74; x5f; x74; x6f; x5f; x62; x61; x63; x6b; x2e; x74; x78; x74; x50; x4b; x01; x02; x3f; x03;
  x0a; x00; x00; x00; x00; x00; x3d; xa8; x30; x56; x46; xf0; x6d; x55; xa0; x01; x00; x00; xa0; x01; x00; x00; x23; x00; x00; x00; x00; x00; x00;
  x00; x00; x00; x00; x00; xa4; x81; x95; x03; x00; x00; x73; x61; x6d; x70; x6c; x65; x5f; x64; x61; x74; x61; x2f; x61; x6c; x70; x68; x61; x2f;
  x62; x61; x63; x6b; x5f; x74; x6f; x5f; x66; x72; x6f; x6e; x74; x2e; x74; x78; x74; x50; x4b; x05; x06; x00; x00; x00; x00; x07; x00; x07; x00;
  xf8; x01; x00; x00; x76; x05; x00; x00; x00; x00].

(** tests/test_inputs/sample_data.deflate.zip *)
Definition deflate_zip : bytes := [
  x50; x4b; x03; x04; x14; x00; x00; x00; x08; x00; x8f; xa8; x30; x56; x00; x00; x00; x00; x02; x00; x00; x00; x00; x00; x00; x00; x0c; x00; x00;
  x00; x73; x61; x6d; x70; x6c; x65; x5f; x64; x61; x74; x61; x2f; x03; x00; x50; x4b; x03; x04; x14; x00; x00; x00; x08; x00; x8f; xa8; x30; x56;
  x00; x00; x00; x00; x02; x00; x00; x00; x00; x00; x00; x00; x14; x00; x00; x00; x73; x61; x6d; x70; x6c; x65; x5f; x64; x61; x74; x61; x2f; x6e;
  x75; x6d; x65; x72; x69; x63; x2f; x03; x00; x50; x4b; x03; x04; x14; x00; x00; x00; x08; x00; x27; xa7; x30; x56; x94; x09; x28; xf0; x35; x00;
  x00; x00; x57; x00; x00; x00; x1f; x00; x00; x00; x73; x61; x6d; x70; x6c; x65; x5f; x64; x61; x74; x61; x2f; x6e; x75; x6d; x65; x72; x69; x63;
  x2f; x66; x6f; x72; x77; x61; x72; x64; x2e; x74; x78; x74; x05; xc1; xb1; x01; xc0; x20; x0c; xc4; xc0; x3e; xb3; xa8; x40; x6f; xc0; x66; xff;
  xc5; x72; x27; xa1; xd8; x1c; x2e; xcd; xf0; x70; xa1; x18; x2c; xdc; x78; xf0; x62; xe3; xe0; x23; x8b; x48; x42; x8a; x6c; x72; xc8; x25; x4d;
  x86; x3c; x6a; x51; x52; xf9; x7e; x50; x4b; x03; x04; x14; x00; x00; x00; x08; x00; x31; xa7; x30; x56; x9f; x5b; xbb; x80; x37; x00; x00; x00;
  x57; x00; x00; x00; x1f; x00; x00; x00; x73; x61; x6d; x70; x6c; x65; x5f; x64; x61; x74; x61; x2f; x6e; x75; x6d; x65; x72; x69; x63; x2f; x72;
  x65; x76; x65; x72; x73; x65; x2e; x74; x78; x74; x0d; xcb; xb9; x01; xc0; x30; x0c; xc4; xb0; x3e; xb3; xb0; x30; x4f; x96; x9f; xfd; x17; x73;
  xd0; xa3; x42; x49; x0d; x72; xc9; x21; x9b; x2c; xd2; x64; x92; x22; x21; x92; x81; x17; x0f; x6e; x5c; xd8; x38; xb1; x30; x28; x0e; x2e; x87;
  xcd; xa2; x99; xfc; x09; xbf; x07; x50; x4b; x03; x04; x14; x00; x00; x00; x08; x00; x8f; xa8; x30; x56; x00; x00; x00; x00; x02; x00; x00; x00;
  x00; x00; x00; x00; x12; x00; x00; x00; x73; x61; x6d; x70; x6c; x65; x5f; x64; x61; x74; x61; x2f; x61; x6c; x70; x68; x61; x2f; x03; x00; x50;
  x4b; x03; x04; x14; x00; x00; x00; x08; x00; x6c; xa8; x30; x56; x32; x3e; x05; xfb; x57; x00; x00; x00; xa0; x01; x00; x00; x23; x00; x00; x00;
  x73; x61; x6d; x70; x6c; x65; x5f; x64; x61; x74; x61; x2f; x61; x6c; x70; x68; x61; x2f; x66; x72; x6f; x6e; x74; x5f; x74; x6f; x5f; x62; x61;
  x63; x6b; x2e; x74; x78; x74; xed; xcd; xc7; x11; x82; x00; x00; x00; xb0; xbf; xb3; x64; x09; xec; x5d; x01; xfb; x4f; x05; xe5; xb0; xf7; x32;
  xbd; xce; xe0; xdb; xcb; x00; x09; xcc; x15; x2d; x94; x2c; x95; x25; x2a; x52; x55; x2b; x35; x6b; x75; x99; xc6; x57; x53; xae; x65; xa3; x6d;
  xab; x63; xa7; x6b; xaf; xe7; xa0; xef; x28; x74; x12; x39; x8b; x5d; x0c; x5c; x0d; xdd; x8c; xdc; x8d; x3d; x4c; x3c; x4d; xbd; xcc; xbc; x0b;
  xc1; xff; xf9; xe9; xf9; x00; x50; x4b; x03; x04; x14; x00; x00; x00; x08; x00; x3d; xa8; x30; x56; x46; xf0; x6d; x55; x57; x00; x00; x00; xa0;
  x01; x00; x00; x23; x00; x00; x00; x73; x61; x6d; x70; x6c; x65; x5f; x64; x61; x74; x61; x2f; x61; x6c; x70; x68; x61; x2f; x62; x61; x63; x6b;
  x5f; x74; x6f; x5f; x66; x72; x6f; x6e; x74; x2e; x74; x78; x74; xed; xcd; xc7; x11; x82; x00; x00; x00; xb0; xbf; xb3; x64; x09; x7b; x2f; x80;
  x95; x9f; x0a; xca; x61; xef; x65; x7a; x9d; xc1; xb7; x97; x01; x12; x7b; x9b; x79; x99; x7a; x9a; x78; x18; xbb; x1b; xb9; x19; xba; x8a; x5c;
  x84; xce; x02; x27; x03; x47; x7d; x07; x3d; x7b; x5d; x3b; x1d; x5b; x6d; x1b; x2d; xb9; xe6; x57; x43; xa6; x6e; xad; x66; xa5; x2a; x55; x91;
  x28; x5b; x2a; x59; x28; x9a; x17; xe2; xff; xf3; xd3; xf3; x01; x50; x4b; x01; x02; x3f; x03; x14; x00; x00; x00; x08; x00; x8f; xa8; x30; x56;
  x00; x00; x00; x00; x02; x00; x00; x00; x00; x00; x00; x00; x0c; x00; x00; x00; x00; x00; x00; x00; x00; x00; x00; x00; xed; x41; x00; x00; x00;
  x00; x73; x61; x6d; x70; x6c; x65; x5f; x64; x61; x74; x61; x2f; x50; x4b; x01; x02; x3f; x03; x14; x00; x00; x00; x08; x00; x8f; xa8; x30; x56;
  x00; x00; x00; x00; x02; x00; x00; x00; x00; x00; x00; x00; x14; x00; x00; x00; x00; x00; x00; x00; x00; x00; x00; x00; xed; x41; x2c; x00; x00;
  x00; x73; x61; x6d; x70; x6c; x65; x5f; x64; x61; x74; x61; x2f; x6e; x75; x6d; x65; x72; x69; x63; x2f; x50; x4b; x01; x02; x3f; x03; x14; x00;
  x00; x00; x08; x00; x27; xa7; x30; x56; x94; x09; x28; xf0; x35; x00; x00; x00; x57; x00; x00; x00; x1f; x00; x00; x00; x00; x00; x00; x00; x00;
  x00; x00; x00; xa4; x81; x60; x00; x00; x00; x73; x61; x6d; x70; x6c; x65; x5f; x64; x61; x74; x61; x2f; x6e; x75; x6d; x65; x72; x69; x63; x2f;
  x66; x6f; x72; x77; x61; x72; x64; x2e; x74; x78; x74; x50; x4b; x01; x02; x3f; x03; x14; x00; x00; x00; x08; x00; x31; xa7; x30; x56; x9f; x5b;
  xbb; x80; x37; x00; x00; x00; x57; x00; x00; x00; x1f; x00; x00; x00; x00; x00; x00; x00; x00; x00; x00; x00; xa4; x81; xd2; x00; x00; x00; x73;
  x61; x6d; x70; x6c; x65; x5f; x64; x61; x74; x61; x2f; x6e; x75; x6d; x65; x72; x69; x63; x2f; x72; x65; x76; x65; x72; x73; x65; x2e; x74; x78;
  x74; x50; x4b; x01; x02; x3f; x03; x14; x00; x00; x00; x08; x00; x8f; xa8; x30; x56; x00; x00; x00; x00; x02; x00; x00; x00; x00; x00; x00; x00;
  x12; x00; x00; x00; x00; x00; x00; x00; x00; x00; x00; x00; xed; x41; x46; x01; x00; x00; x73; x61; x6d; x70; x6c; x65; x5f; x64; x61; x74; x61;
  x2f; x61; x6c; x70; x68; x61; x2f; x50; x4b; x01; x02; x3f; x03; x14; x00; x00; x00; x08; x00; x6c; xa8; x30; x56; x32; x3e; x05; xfb; x57; x00;
  x00; x00; xa0; x01; x00; x00; x23; x00; x00; x00; x00; x00; x00; x00; x00; x00; x00; x00; xa4; x81; x78; x01; x00; x00; x73; x61; x6d; x70; x6c;
  x65; x5f; x64; x61; x74; x61; x2f; x61; x6c; x70; x68; x61; x2f; x66; x72; x6f; x6e; x74; x5f; x74; x6f; x5f; x62; x61; x63; x6b; x2e; x74; x78;
  x74; x50; x4b; x01; x02; x3f; x03; x14; x00; x00; x00; x08; x00; x3d; xa8; x30; x56; x46; xf0; x6d; x55; x57; x00; x00; x00; xa0; x01; x00; x00;
  x23; x00; x00; x00; x00; x00; x00; x00; x00; x00; x00; x00; xa4; x81; x10; x02; x00; x00; x73; x61; x6d; x70; x6c; x65; x5f; x64; x61; x74; x61;
  x2f; x61; x6c; x70; x68; x61; x2f; x62; x61; x63; x6b; x5f; x74; x6f; x5f; x66; x72; x6f; x6e; x74; x2e; x74; x78; x74; x50; x4b; x05; x06; x00;
  x00; x00; x00; x07; x00; x07; x00; xf8; x01; x00; x00; xa8; x02; x00; x00; x00; x00].

(** tests/test_inputs/sample_data/alpha/back_to_front.txt *)
Definition back_to_front : bytes := [
  x5a; x2c; x7a; x2c; x59; x2c; x79; x2c; x58; x2c; x78; x2c; x57; x2c; x77; x2c; x56; x2c; x76; x2c; x55; x2c; x75; x2c; x54; x2c; x74; x2c; x53;
  x2c; x73; x2c; x52; x2c; x72; x2c; x51; x2c; x71; x2c; x50; x2c; x70; x2c; x4f; x2c; x6f; x2c; x4e; x2c; x6e; x2c; x4d; x2c; x6d; x2c; x4c; x2c;
  x6c; x2c; x4b; x2c; x6b; x2c; x4a; x2c; x6a; x2c; x49; x2c; x49; x2c; x48; x2c; x68; x2c; x47; x2c; x67; x2c; x46; x2c; x66; x2c; x45; x2c; x65;
  x2c; x44; x2c; x64; x2c; x43; x2c; x63; x2c; x42; x2c; x62; x2c; x41; x2c; x61; x0a; x5a; x2c; x7a; x2c; x59; x2c; x79; x2c; x58; x2c; x78; x2c;
  x57; x2c; x77; x2c; x56; x2c; x76; x2c; x55; x2c; x75; x2c; x54; x2c; x74; x2c; x53; x2c; x73; x2c; x52; x2c; x72; x2c; x51; x2c; x71; x2c; x50;
  x2c; x70; x2c; x4f; x2c; x6f; x2c; x4e; x2c; x6e; x2c; x4d; x2c; x6d; x2c; x4c; x2c; x6c; x2c; x4b; x2c; x6b; x2c; x4a; x2c; x6a; x2c; x49; x2c;
  x49; x2c; x48; x2c; x68; x2c; x47; x2c; x67; x2c; x46; x2c; x66; x2c; x45; x2c; x65; x2c; x44; x2c; x64; x2c; x43; x2c; x63; x2c; x42; x2c; x62;
  x2c; x41; x2c; x61; x0a; x5a; x2c; x7a; x2c; x59; x2c; x79; x2c; x58; x2c; x78; x2c; x57; x2c; x77; x2c; x56; x2c; x76; x2c; x55; x2c; x75; x2c;
  x54; x2c; x74; x2c; x53; x2c; x73; x2c; x52; x2c; x72; x2c; x51; x2c; x71; x2c; x50; x2c; x70; x2c; x4f; x2c; x6f; x2c; x4e; x2c; x6e; x2c; x4d;
  x2c; x6d; x2c; x4c; x2c; x6c; x2c; x4b; x2c; x6b; x2c; x4a; x2c; x6a; x2c; x49; x2c; x49; x2c; x48; x2c; x68; x2c; x47; x2c; x67; x2c; x46; x2c;
  x66; x2c; x45; x2c; x65; x2c; x44; x2c; x64; x2c; x43; x2c; x63; x2c; x42; x2c; x62; x2c; x41; x2c; x61; x0a; x5a; x2c; x7a; x2c; x59; x2c; x79;
  x2c; x58; x2c; x78; x2c; x57; x2c; x77; x2c; x56; x2c; x76; x2c; x55; x2c; x75; x2c; x54; x2c; x74; x2c; x53; x2c; x73; x2c; x52; x2c; x72; x2c;
  x51; x2c; x71; x2c; x50; x2c; x70; x2c; x4f; x2c; x6f; x2c; x4e; x2c; x6e; x2c; x4d; x2c; x6d; x2c; x4c; x2c; x6c; x2c; x4b; x2c; x6b; x2c; x4a;
  x2c; x6a; x2c; x49; x2c; x49; x2c; x48; x2c; x68; x2c; x47; x2c; x67; x2c; x46; x2c; x66; x2c; x45; x2c; x65; x2c; x44; x2c; x64; x2c; x43; x2c;
  x63; x2c; x42; x2c; x62; x2c; x41; x2c; x61; x0a].

(** tests/test_inputs/sample_data/alpha/front_to_back.txt *)
Definition front_to_back : bytes := [
  x41; x2c; x61; x2c; x42; x2c; x62; x2c; x43; x2c; x63; x2c; x44; x2c; x64; x2c; x45; x2c; x65; x2c; x46; x2c; x66; x2c; x47; x2c; x67; x2c; x48;
  x2c; x68; x2c; x49; x2c; x49; x2c; x4a; x2c; x6a; x2c; x4b; x2c; x6b; x2c; x4c; x2c; x6c; x2c; x4d; x2c; x6d; x2c; x4e; x2c; x6e; x2c; x4f; x2c;
  x6f; x2c; x50; x2c; x70; x2c; x51; x2c; x71; x2c; x52; x2c; x72; x2c; x53; x2c; x73; x2c; x54; x2c; x74; x2c; x55; x2c; x75; x2c; x56; x2c; x76;
  x2c; x57; x2c; x77; x2c; x58; x2c; x78; x2c; x59; x2c; x79; x2c; x5a; x2c; x7a; x0a; x41; x2c; x61; x2c; x42; x2c; x62; x2c; x43; x2c; x63; x2c;
  x44; x2c; x64; x2c; x45; x2c; x65; x2c; x46; x2c; x66; x2c; x47; x2c; x67; x2c; x48; x2c; x68; x2c; x49; x2c; x49; x2c; x4a; x2c; x6a; x2c; x4b;
  x2c; x6b; x2c; x4c; x2c; x6c; x2c; x4d; x2c; x6d; x2c; x4e; x2c; x6e; x2c; x4f; x2c; x6f; x2c; x50; x2c; x70; x2c; x51; x2c; x71; x2c; x52; x2c;
  x72; x2c; x53; x2c; x73; x2c; x54; x2c; x74; x2c; x55; x2c; x75; x2c; x56; x2c; x76; x2c; x57; x2c; x77; x2c; x58; x2c; x78; x2c; x59; x2c; x79;
  x2c; x5a; x2c; x7a; x0a; x41; x2c; x61; x2c; x42; x2c; x62; x2c; x43; x2c; x63; x2c; x44; x2c; x64; x2c; x45; x2c; x65; x2c; x46; x2c; x66; x2c;
  x47; x2c; x67; x2c; x48; x2c; x68; x2c; x49; x2c; x49; x2c; x4a; x2c; x6a; x2c; x4b; x2c; x6b; x2c; x4c; x2c; x6c; x2c; x4d; x2c; x6d; x2c; x4e;
  x2c; x6e; x2c; x4f; x2c; x6f; x2c; x50; x2c; x70; x2c; x51; x2c; x71; x2c; x52; x2c; x72; x2c; x53; x2c; x73; x2c; x54; x2c; x74; x2c; x55; x2c;
  x75; x2c; x56; x2c; x76; x2c; x57; x2c; x77; x2c; x58; x2c; x78; x2c; x59; x2c; x79; x2c; x5a; x2c; x7a; x0a; x41; x2c; x61; x2c; x42; x2c; x62;
  x2c; x43; x2c; x63; x2c; x44; x2c; x64; x2c; x45; x2c; x65; x2c; x46; x2c; x66; x2c; x47; x2c; x67; x2c; x48; x2c; x68; x2c; x49; x2c; x49; x2c;
  x4a; x2c; x6a; x2c; x4b; x2c; x6b; x2c; x4c; x2c; x6c; x2c; x4d; x2c; x6d; x2c; x4e; x2c; x6e; x2c; x4f; x2c; x6f; x2c; x50; x2c; x70; x2c; x51;
  x2c; x71; x2c; x52; x2c; x72; x2c; x53; x2c; x73; x2c; x54; x2c; x74; x2c; x55; x2c; x75; x2c; x56; x2c; x76; x2c; x57; x2c; x77; x2c; x58; x2c;
  x78; x2c; x59; x2c; x79; x2c; x5a; x2c; x7a; x0a].

(** tests/test_inputs/sample_data/numeric/forward.txt *)
Definition forward : bytes := [
  x31; x2c; x32; x2c; x33; x2c; x34; x2c; x35; x2c; x36; x2c; x37; x2c; x38; x2c; x39; x2c; x31; x30; x2c; x31; x31; x2c; x31; x32; x2c; x31; x33;
  x2c; x31; x34; x2c; x31; x35; x2c; x31; x36; x2c; x31; x37; x2c; x31; x38; x2c; x31; x39; x2c; x32; x30; x2c; x32; x31; x2c; x32; x32; x2c; x32;
  x33; x2c; x32; x34; x2c; x32; x35; x2c; x32; x36; x2c; x32; x37; x2c; x32; x38; x2c; x32; x39; x2c; x33; x30; x2c; x33; x31; x2c; x33; x32; x0a].

(** tests/test_inputs/sample_data/numeric/reverse.txt *)
Definition reverse : bytes := [
  x33; x32; x2c; x33; x31; x2c; x33; x30; x2c; x32; x39; x2c; x32; x38; x2c; x32; x37; x2c; x32; x36; x2c; x32; x35; x2c; x32; x34; x2c; x32; x33;
  x2c; x32; x32; x2c; x32; x31; x2c; x32; x30; x2c; x31; x39; x2c; x31; x38; x2c; x31; x37; x2c; x31; x36; x2c; x31; x35; x2c; x31; x34; x2c; x31;
  x33; x2c; x31; x32; x2c; x31; x31; x2c; x31; x30; x2c; x39; x2c; x38; x2c; x37; x2c; x36; x2c; x35; x2c; x34; x2c; x33; x2c; x32; x2c; x31; x0a].

(** src/tests/read/locator/empty-with-max-comment.zip and empty-buffer-boundary.zip: an end record and a comment of 'A's *)
Definition zip_max_comment : bytes := [
  x50; x4b; x05; x06; x00; x00; x00; x00; x00; x00; x00; x00; x00; x00; x00; x00; x00; x00; x00; x00; xff; xff] ++ repeat x41 (N.to_nat 65535).
Definition zip_buffer_boundary : bytes := [
  x50; x4b; x05; x06; x00; x00; x00; x00; x00; x00; x00; x00; x00; x00; x00; x00; x00; x00; x00; x00; xfe; x07] ++ repeat x41 (N.to_nat 2046).

(** src/tests/read/compression/deflate.data: a compressed stream followed by zeros *)
Definition deflate_data : bytes := [
  x4b; xcb; xcf; x57; x48; x4a; x2c; x02; x00] ++ repeat x00 (N.to_nat 1024).
