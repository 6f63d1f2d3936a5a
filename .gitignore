*.vo
*.vok
*.vos
*.glob
*.aux
.*.aux
*.conf
Makefile
Makefile.conf
.Makefile.d
.lia.cache
.nia.cache
*.nia.cache
.lia.cache
