{
 "C58": {
  "note": "num_fxfy must be an int that is not a bool (True makes the resumed build raise: C58_bool_refuted); num_fxfy comes back as numpy integer. C58_crash also covers torn writes and a half-removed directory."
 }
}