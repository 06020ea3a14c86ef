(** Table of key names: src/config/get_key_name.cpp:25-227 with the codes of
    src/runtime/Key.h for Linux (generated from these files by a script). *)
From Coq Require Import List NArith String.
From Verif Require Import Key.
Import ListNotations.
Local Open Scope N_scope.
Local Open Scope string_scope.

Definition key_names : list (string * key) := [
  ("Escape", 0x1);
  ("1", 0x2);
  ("2", 0x3);
  ("3", 0x4);
  ("4", 0x5);
  ("5", 0x6);
  ("6", 0x7);
  ("7", 0x8);
  ("8", 0x9);
  ("9", 0xa);
  ("0", 0xb);
  ("Minus", 0xc);
  ("Equal", 0xd);
  ("Backspace", 0xe);
  ("Tab", 0xf);
  ("Q", 0x10);
  ("W", 0x11);
  ("E", 0x12);
  ("R", 0x13);
  ("T", 0x14);
  ("Y", 0x15);
  ("U", 0x16);
  ("I", 0x17);
  ("O", 0x18);
  ("P", 0x19);
  ("BracketLeft", 0x1a);
  ("BracketRight", 0x1b);
  ("Enter", 0x1c);
  ("ControlLeft", 0x1d);
  ("A", 0x1e);
  ("S", 0x1f);
  ("D", 0x20);
  ("F", 0x21);
  ("G", 0x22);
  ("H", 0x23);
  ("J", 0x24);
  ("K", 0x25);
  ("L", 0x26);
  ("Semicolon", 0x27);
  ("Quote", 0x28);
  ("Backquote", 0x29);
  ("ShiftLeft", 0x2a);
  ("Backslash", 0x2b);
  ("Z", 0x2c);
  ("X", 0x2d);
  ("C", 0x2e);
  ("V", 0x2f);
  ("B", 0x30);
  ("N", 0x31);
  ("M", 0x32);
  ("Comma", 0x33);
  ("Period", 0x34);
  ("Slash", 0x35);
  ("ShiftRight", 0x36);
  ("NumpadMultiply", 0x37);
  ("AltLeft", 0x38);
  ("Space", 0x39);
  ("CapsLock", 0x3a);
  ("F1", 0x3b);
  ("F2", 0x3c);
  ("F3", 0x3d);
  ("F4", 0x3e);
  ("F5", 0x3f);
  ("F6", 0x40);
  ("F7", 0x41);
  ("F8", 0x42);
  ("F9", 0x43);
  ("F10", 0x44);
  ("NumLock", 0x45);
  ("ScrollLock", 0x46);
  ("Numpad7", 0x47);
  ("Numpad8", 0x48);
  ("Numpad9", 0x49);
  ("NumpadSubtract", 0x4a);
  ("Numpad4", 0x4b);
  ("Numpad5", 0x4c);
  ("Numpad6", 0x4d);
  ("NumpadAdd", 0x4e);
  ("Numpad1", 0x4f);
  ("Numpad2", 0x50);
  ("Numpad3", 0x51);
  ("Numpad0", 0x52);
  ("NumpadDecimal", 0x53);
  ("IntlBackslash", 0x56);
  ("F11", 0x57);
  ("F12", 0x58);
  ("IntlRo", 0x59);
  ("Convert", 0x5c);
  ("KanaMode", 0x5d);
  ("NonConvert", 0x5e);
  ("NumpadEnter", 0x60);
  ("ControlRight", 0x61);
  ("NumpadDivide", 0x62);
  ("PrintScreen", 0x63);
  ("AltRight", 0x64);
  ("Home", 0x66);
  ("ArrowUp", 0x67);
  ("PageUp", 0x68);
  ("ArrowLeft", 0x69);
  ("ArrowRight", 0x6a);
  ("End", 0x6b);
  ("ArrowDown", 0x6c);
  ("PageDown", 0x6d);
  ("Insert", 0x6e);
  ("Delete", 0x6f);
  ("Settings", 0x76);
  ("BrightnessDown", 0xe0);
  ("BrightnessUp", 0xe1);
  ("DisplayToggleIntExt", 0xe3);
  ("Prog3", 0xca);
  ("WLAN", 0xee);
  ("LaunchApp2", 0x8c);
  ("AudioVolumeMute", 0x71);
  ("AudioVolumeDown", 0x72);
  ("AudioVolumeUp", 0x73);
  ("Power", 0x74);
  ("NumpadEqual", 0x75);
  ("Pause", 0x77);
  ("Cancel", 0x65);
  ("NumpadComma", 0x79);
  ("Lang1", 0x7a);
  ("Lang2", 0x7b);
  ("IntlYen", 0x7c);
  ("MetaLeft", 0x7d);
  ("MetaRight", 0x7e);
  ("ContextMenu", 0x7f);
  ("BrowserStop", 0x80);
  ("LaunchApp1", 0x90);
  ("BrowserSearch", 0xd9);
  ("BrowserFavorites", 0x9c);
  ("BrowserBack", 0x9e);
  ("BrowserForward", 0x9f);
  ("MediaTrackNext", 0xa3);
  ("MediaPlayPause", 0xa4);
  ("MediaTrackPrevious", 0xa5);
  ("MediaStop", 0xa6);
  ("MediaRewind", 0xa8);
  ("MediaPlay", 0xc8);
  ("MediaPause", 0xc9);
  ("MediaFastForward", 0xd0);
  ("BrowserRefresh", 0xad);
  ("BrowserHome", 0xac);
  ("LaunchMail", 0x9b);
  ("LaunchMediaPlayer", 0xab);
  ("Again", 0x81);
  ("Props", 0x82);
  ("Undo", 0x83);
  ("Select", 0x84);
  ("Copy", 0x85);
  ("Open", 0x86);
  ("Paste", 0x87);
  ("Find", 0x88);
  ("Cut", 0x89);
  ("Help", 0x8a);
  ("Sleep", 0x8e);
  ("WakeUp", 0x8f);
  ("Eject", 0xa1);
  ("Fn", 0x1d0);
  ("F13", 0xb7);
  ("F14", 0xb8);
  ("F15", 0xb9);
  ("F16", 0xba);
  ("F17", 0xbb);
  ("F18", 0xbc);
  ("F19", 0xbd);
  ("F20", 0xbe);
  ("F21", 0xbf);
  ("F22", 0xc0);
  ("F23", 0xc1);
  ("F24", 0xc2);
  ("ButtonLeft", 0x110);
  ("ButtonRight", 0x111);
  ("ButtonMiddle", 0x112);
  ("ButtonBack", 0x113);
  ("ButtonForward", 0x114);
  ("WheelUp", 0x150);
  ("WheelDown", 0x151);
  ("WheelLeft", 0x152);
  ("WheelRight", 0x153);
  ("Any", 0xf000);
  ("ContextActive", 0xf002)
].
