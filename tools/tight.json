{
 "schar": [
  "C94_value"
 ],
 "i64": "the theorems hold for every integer type t; i64 only names an instance, whose upper bound no theorem needs",
 "block_of": "equivalent: the text read stops at the zero that extract_name puts after the line itself; only the length of what follows matters",
 "om_in": [
  "C95_names"
 ],
 "sys_step": [
  "C175_clear"
 ],
 "s_seekp": [
  "C234_seek_and_str",
  "C235_end_refuted"
 ],
 "walk": "the theorems about paths assume that the program follows no null member (follow gives a place), so they stay true of a program in which that is defined",
 "range_ok": "equivalent: a range of 32 bits in one word would end at the first bit of the next word, which the third condition excludes",
 "f_not_equal_to": [
  "C119_equality"
 ],
 "oss_link": [
  "C51_linked_new"
 ],
 "hr_min": [
  "C174_min_is"
 ],
 "initial": "conversions only ask if the fill character is '0' (sostream.cc:78): a new stream with fill 1 prints the same; only the accessor fill() would tell",
 "skip_delimiters_loop": "equivalent: the call is only reached with nothing left to read, so verifying 1 byte or 2 fails alike; the size in the exception's text is modelled in ExcModel, not here",
 "target": [
  "C130_random_access",
  "C131_positioned"
 ],
 "r_write": [
  "C82_reverse_write"
 ]
}