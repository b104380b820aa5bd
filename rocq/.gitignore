*.vo
*.vok
*.vos
*.glob
*.aux
Makefile
Makefile.conf
.Makefile.d
*.d
*.lia.cache
.nia.cache
.lia.cache
